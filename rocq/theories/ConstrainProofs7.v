(** Proofs about the tightness of [constrain] for combinations of comparisons (C32, C35). *)
From Coq Require Import Bool List Arith.
From Verif Require Import Outcome SetModel Spec SetProofs SetProofs2 Num NumLaws IntervalModel IvlSpec IvlProofs ConstrainModel CondSpec
  ConstrainProofs ConstrainProofs2 ConstrainProofs3 ConstrainProofs4 ConstrainProofs5 ConstrainProofs6 ConjSpec.
Import ListNotations.

Section Cond.
  Context {O : ordty} (HO : ord_laws O) (dbg : bool) (x : nat).
  Implicit Types (X Y Z : ivl O) (c : cond O) (f g : cform O).

  Lemma atom_flags (R : rel) (s t : term O) X (cons opt : bool) : bcontains (cset (rel_value R s t)) true = true -> mentions x (GRel R s t) = true ->
    dconstrain dbg x X (rel_value R s t) cons opt = dconstrain dbg x X (rel_value R s t) false false.
  Proof.
    intros M Me. cbn [mentions] in Me. rewrite <- !op_is_term in Me. destruct R; cbn [rel_value cset] in *; cbn [dconstrain]; rewrite M;
      destruct (op_is x (operand_of s)), (op_is x (operand_of t)); try discriminate Me; reflexivity.
  Qed.
  Lemma atom_exact (R : rel) (s t : term O) X : legal (GRel R s t) -> proper X -> occurs_as x X (GRel R s t) -> one_sided x (GRel R s t) -> mentions x (GRel R s t) = true -> possible (GRel R s t) true ->
    exists Z, (forall cons opt, dconstrain dbg x X (rel_value R s t) cons opt = Ret (Z, true)) /\ proper Z /\ forall v, el Z v <-> meets x (GRel R s t) v.
  Proof.
    intros L PX Oc S Me P. destruct (proj1 (constrain_rel HO dbg x R s t X L PX Me Oc) P) as [Z E]. destruct (constrain_rel_inv HO dbg x R s t X Z L E) as [k D].
    assert (M : bcontains (cset (rel_value R s t)) true = true) by (apply bmember_iff; apply (rel_wfc HO R s t L); exact P).
    assert (K : k = true). { unfold constrain_by in E. rewrite (rel_build HO dbg R s t L) in E. cbn [bind] in E. unfold constrain in E. rewrite D in E. cbn [bind] in E. destruct k; [reflexivity|discriminate]. }
    subst k. exists Z. split; [intros cons opt; now rewrite atom_flags|]. destruct (S Me) as [NR Xo].
    split; [exact (proj1 (constrain_within HO dbg x _ X Z L PX Oc E))|]. intros v. rewrite (constrain_tight HO dbg x R s t X Z L PX Oc NR Xo E v). cbn [meets]. rewrite Me. intuition.
  Qed.
  Lemma solution_el (R R0 : rel) (s t : term O) X v : occurs_as x X (GRel R0 s t) -> solution x R s t v -> el X v.
  Proof.
    intros [Os Ot] [(A & B & _)|(A & B & _)]; [destruct s as [i Y|]|destruct t as [i Y|]]; try discriminate; cbn in A; apply Nat.eqb_eq in A; cbn in B; [now rewrite <- (Os A)|now rewrite <- (Ot A)].
  Qed.
  Lemma and_exact (vl vr : ivl O) : proper vl -> proper vr ->
    (exists Z, (expects_debug dbg (o_le (lo vr) (hi vl) && o_le (lo vl) (hi vr)) ;;; mk (omax (lo vl) (lo vr)) (omin (hi vl) (hi vr))) = Ret Z /\ proper Z /\ forall v, el Z v <-> el vl v /\ el vr v)
    \/ ((forall A (k : ivl O -> outcome A), (expects_debug dbg (o_le (lo vr) (hi vl) && o_le (lo vl) (hi vr)) ;;; Z <- mk (omax (lo vl) (lo vr)) (omin (hi vl) (hi vr)) ;; k Z) = FailFast) /\ ~ exists v, el vl v /\ el vr v).
  Proof.
    intros Pl Pr. destruct (proper_oks HO vl Pl) as [A1 A2], (proper_oks HO vr Pr) as [B1 B2].
    assert (I : forall v, el (Ivl (omax (lo vl) (lo vr)) (omin (hi vl) (hi vr))) v <-> el vl v /\ el vr v).
    { intros v. unfold el. cbn [lo hi]. rewrite (omax_le HO v _ _ A1 B1), (le_omin HO v _ _ A2 B2). tauto. }
    destruct (o_le (omax (lo vl) (lo vr)) (omin (hi vl) (hi vr))) eqn:Le.
    - left. destruct (proj1 (I (omax (lo vl) (lo vr)))) as [[C1 C2] [D1 D2]].
      { split; cbn [lo hi]; [|exact Le]. pose proof (omax_ok _ _ A1 B1) as K. exact K. }
      exists (Ivl (omax (lo vl) (lo vr)) (omin (hi vl) (hi vr))). rewrite expects_debug_true by (clear - HO C1 C2 D1 D2; ord HO). cbn [bind]. rewrite (mk_proper HO) by exact Le. auto.
    - right. split.
      + intros A k. unfold mk. destruct (expects_debug dbg _) as [[]| | | |] eqn:E; unfold expects_debug, expects in E; destruct dbg; try destruct (_ && _); try discriminate E; try reflexivity; cbn [bind].
        all: pose proof (omax_ok _ _ A1 B1) as K1; pose proof (omin_ok _ _ A2 B2) as K2.
        all: replace (o_lt (omin (hi vl) (hi vr)) (omax (lo vl) (lo vr))) with true by (symmetry; clear - HO K1 K2 Le; ord HO); reflexivity.
      + intros (v & Hv). apply I in Hv as [V1 V2]. cbn [lo hi] in *. clear - HO Le V1 V2. ord HO.
  Qed.

  Lemma conj_exact f c X (cons opt : bool) : legal f -> proper X -> conjunctive f = true -> one_sided x f -> occurs_as x X f -> possible f true -> build dbg f = Ret c ->
    (exists Z, dconstrain dbg x X c cons opt = Ret (Z, cons || mentions x f) /\ proper Z /\ forall v, el Z v <-> el X v /\ meets x f v)
    \/ (dconstrain dbg x X c cons opt = FailFast /\ ~ exists v, el X v /\ meets x f v).
  Proof.
    intros L PX. revert c cons. induction f as [b|s|r s t|f IH|f IHf g IHg|f IHf g IHg]; intros c cons C S Oc P E.
    - injection E as <-. left. exists X. cbn. rewrite orb_false_r. intuition.
    - injection E as <-. left. exists X. cbn. rewrite orb_false_r. intuition.
    - rewrite (rel_build HO dbg r s t L) in E. injection E as <-. left. destruct (mentions x (GRel r s t)) eqn:Me.
      + destruct (atom_exact r s t X L PX Oc S Me P) as (Z & D & PZ & I). exists Z. rewrite D, orb_true_r. split; [reflexivity|]. split; [exact PZ|]. intros v. rewrite I.
        split; [intros H; split; [|exact H]|tauto]. cbn [meets] in H. specialize (H Me). exact (solution_el _ _ _ _ X v Oc H).
      + exists X. apply possible_rel in P as (u & v & Hu & Hv & Hr). pose proof Me as Me'. cbn [mentions] in Me'. apply orb_false_iff in Me' as [M1 M2].
        destruct (rel_keep HO dbg x r s t X u v cons opt L Hu Hv Hr) as (Z & D & _ & _ & _ & K); [congruence..|]. rewrite (K M1 M2), Me in D. split; [exact D|]. split; [exact PX|].
        intros w. cbn [meets]. rewrite Me. intuition discriminate.
    - cbn in C. left. exists X. rewrite (dc_plain dbg x X c) by (eapply build_plain; [exact E|exact C]). cbn. rewrite (plain_mentions x f C), orb_false_r. intuition.
    - cbn in C. apply andb_true_iff in C as [C1 C2]. pose proof L as L0. apply legal_and in L as [L1 L2]. destruct S as [S1 S2]. destruct Oc as [O1 O2].
      assert (P12 : possible f true /\ possible g true). { pose proof P as P'. apply possible_and in P' as (p & q & Pp & Pq & Q). destruct p, q; try discriminate Q. auto. }
      destruct P12 as [P1 P2]. pose proof E as E0. cbn in E. destruct (build dbg f) as [l| | | |] eqn:El; try discriminate. destruct (build dbg g) as [r| | | |] eqn:Er; try discriminate.
      cbn in E. injection E as <-. destruct (c_and_shape l r) as [Es|(In & Il & Ir)].
      + destruct (build_ok HO dbg _ L0) as (c' & Ec' & W & M). rewrite E0 in Ec'. injection Ec' as <-. rewrite Es in M. rewrite Es. cbn [dconstrain meets].
        destruct (IHf L1 l cons C1 S1 O1 P1 eq_refl) as [(vl & Dl & Pl & Kl)|[Dl Kl]]; rewrite Dl; cbn [bind]; [|right; split; [reflexivity|intros (v & V1 & V2 & _); apply Kl; eauto]].
        destruct (IHg L2 r (cons || mentions x f) C2 S2 O2 P2 eq_refl) as [(vr & Dr & Pr & Kr)|[Dr Kr]]; rewrite Dr; cbn [bind]; [|right; split; [reflexivity|intros (v & V1 & _ & V2); apply Kr; eauto]].
        assert (Mt : bcontains (and_value l r) true = true) by (apply bmember_iff; now apply (M true)). rewrite Mt.
        destruct (and_exact vl vr Pl Pr) as [(Z & EZ & PZ & KZ)|[F K]].
        * left. exists Z. apply bind_inv in EZ as ([] & EZ1 & EZ2). rewrite EZ1. cbn [bind]. rewrite EZ2. cbn [bind]. split; [cbn [mentions]; now rewrite orb_assoc|]. split; [exact PZ|].
          intros v. rewrite KZ, Kl, Kr. tauto.
        * right. split; [apply F|]. intros (v & V1 & V2 & V3). apply K. exists v. rewrite Kl, Kr. auto.
      + left. exists X. rewrite (dc_plain dbg x X _ _ _ In). cbn [mentions]. rewrite (not_cond_mentions HO dbg x f l), (not_cond_mentions HO dbg x g r) by assumption. rewrite orb_false_r. split; [reflexivity|]. split; [exact PX|].
        assert (U : forall h : cform O, mentions x h = false -> conjunctive h = true -> forall v, meets x h v).
        { induction h as [b|s|R s t|h IH|h IHh k IHk|h IHh k IHk]; cbn [meets conjunctive]; auto; [intros Q; rewrite Q; discriminate|]. cbn [mentions]. intros Q K v. apply orb_false_iff in Q as [Q1 Q2]. apply andb_true_iff in K as [K1 K2]. auto. }
        intros v. cbn [meets]. split; [|tauto]. intros Hv. split; [exact Hv|]. split; apply U; auto; [now apply (not_cond_mentions HO dbg x f l)|now apply (not_cond_mentions HO dbg x g r)].
    - cbn in C. assert (Q : plain (GOr f g) = true) by exact C. left. exists X. rewrite (dc_plain dbg x X c) by (eapply build_plain; [exact E|exact Q]). rewrite (plain_mentions x _ Q), orb_false_r. cbn [meets]. intuition.
  Qed.

  Theorem conjunction_exact f X : legal f -> proper X -> unmixed f = true -> conjunctive (nnf true f) = true -> one_sided x (nnf true f) -> mentions x f = true -> occurs_as x X f -> possible f true ->
    ((exists v, el X v /\ meets x (nnf true f) v) -> exists Z, constrain_by dbg x X f = Ret Z)
    /\ ((~ exists v, el X v /\ meets x (nnf true f) v) -> constrain_by dbg x X f = FailFast)
    /\ forall Z, constrain_by dbg x X f = Ret Z -> forall v, el Z v <-> el X v /\ meets x (nnf true f) v.
  Proof.
    intros L PX U C S Me Oc P. pose proof (legal_nnf f L true) as L'. destruct (build_ok HO dbg _ L') as (c & E & _ & Mb).
    assert (P' : possible (nnf true f) true). { apply Mb. destruct (build_ok HO dbg f L) as (c' & E' & _ & Mb'). rewrite (build_nnf HO dbg f L U), E' in E. injection E as ->. now apply Mb'. }
    assert (Oc' : occurs_as x X (nnf true f)) by now apply all_terms_nnf.
    unfold constrain_by. rewrite <- (build_nnf HO dbg f L U), E. cbn [bind]. unfold constrain.
    destruct (conj_exact (nnf true f) c X false false L' PX C S Oc' P' E) as [(Z & D & PZ & K)|[D K]]; rewrite D; cbn [bind orb].
    - rewrite mentions_nnf, Me. cbn [expects bind]. split; [eauto|]. split; [|intros Z' Q; injection Q as <-; exact K].
      intros N. exfalso. apply N. apply (proper_iff HO) in PZ as (v & Hv). exists v. now apply K.
    - split; [intros H; contradiction|]. split; [reflexivity|discriminate].
  Qed.

  (** ** Disjunctions of conjunctions *)
  Theorem disjunction_exact f g X Z : legal (GOr f g) -> proper X -> conjunctive f = true -> conjunctive g = true -> one_sided x (GOr f g) -> mentions x f = true -> mentions x g = true ->
    occurs_as x X (GOr f g) -> constrain_by dbg x X (GOr f g) = Ret Z ->
    is_hull (fun v => el X v /\ ((possible f true /\ meets x f v) \/ (possible g true /\ meets x g v))) Z.
  Proof.
    intros L PX C1 C2 [S1 S2] M1 M2 [O1 O2] H. pose proof L as L0. apply legal_or in L as [L1 L2]. unfold constrain_by in H. cbn [build] in H.
    destruct (build_ok HO dbg f L1) as (l & El & _ & Ml). destruct (build_ok HO dbg g L2) as (r & Er & _ & Mr). rewrite El, Er in H. cbn [bind] in H.
    assert (Hu : forall Y P, (forall v, el Y v <-> P v) -> proper Y -> is_hull P Y).
    { intros Y P I PY. destruct (proper_oks HO Y PY) as [A B]. split; [intros v; apply I|]. split; [exists (lo Y)|exists (hi Y)]; (split; [apply I; split; [exact A || exact PY|exact PY || exact B]|]); [clear - HO A; ord HO|clear - HO B; ord HO]. }
    destruct (c_or_shape l r) as [Es|(_ & Il & _)]; [|exfalso; pose proof (not_cond_mentions HO dbg x f l L1 El Il C1); congruence].
    unfold constrain in H. rewrite Es in H. cbn [dconstrain] in H.
    destruct (build_ok HO dbg _ L0) as (c & Ec & _ & Mc). cbn [build] in Ec. rewrite El, Er in Ec. cbn [bind] in Ec. injection Ec as <-. rewrite Es in Mc. cbn [cset] in Mc.
    apply bind_inv in H as ([Z' k] & H & K). apply bind_inv in K as ([] & _ & K). injection K as ->.
    apply bind_inv in H as ([xl k1] & Dl & H). apply bind_inv in H as ([xr k2] & Dr & H). apply bind_inv in H as ([] & Ex & H).
    rewrite !cpossible_iff in H.
    assert (Bl : forall f c k X0, legal f -> conjunctive f = true -> one_sided x f -> mentions x f = true -> occurs_as x X f -> build dbg f = Ret c -> (forall b : bool, member (cset c) b <-> possible f b) ->
      dconstrain dbg x X c false true = Ret (X0, k) ->
      (possible f true /\ k && bcontains (cset c) true = true /\ proper X0 /\ forall v, el X0 v <-> el X v /\ meets x f v) \/ (~ possible f true /\ k && bcontains (cset c) true = false)).
    { intros h d k0 Y Lh Ch Sh Mh Oh Eh Bh Dh. destruct (possible_dec HO dbg h true Lh) as [Ph|Ph].
      - left. split; [exact Ph|]. destruct (conj_exact h d X false true Lh PX Ch Sh Oh Ph Eh) as [(Z0 & D0 & P0 & K0)|[D0 _]]; rewrite D0 in Dh; [|discriminate]. injection Dh as <- <-. rewrite Mh. cbn [orb andb].
        split; [apply bmember_iff; now apply Bh|]. auto.
      - right. split; [exact Ph|]. destruct (bcontains (cset d) true) eqn:Eb; [|apply andb_false_r]. exfalso. apply Ph, Bh. now apply bmember_iff. }
    destruct (Bl f l k1 xl L1 C1 S1 M1 O1 El Ml Dl) as [(Pf & Bf & Xl & Kl)|[Pf Bf]], (Bl g r k2 xr L2 C2 S2 M2 O2 Er Mr Dr) as [(Pg & Bg & Xr & Kr)|[Pg Bg]]; rewrite Bf, Bg in H; cbn [andb] in H.
    - apply bind_inv in H as (Y & EY & H). injection H as <- _.
      destruct (proper_oks HO xl Xl) as [A1 A2], (proper_oks HO xr Xr) as [A3 A4].
      pose proof (omin_l HO _ _ A1 A3) as B1. pose proof (omin_r HO _ _ A1 A3) as B2. pose proof (omax_l HO _ _ A2 A4) as B3. pose proof (omax_r HO _ _ A2 A4) as B4. unfold proper in Xl, Xr.
      assert (Pz : o_le (omin (lo xl) (lo xr)) (omax (hi xl) (hi xr)) = true) by (clear - HO B1 B3 Xl; ord HO). rewrite (mk_proper HO) in EY by exact Pz. injection EY as <-.
      assert (Sl : forall v, el xl v -> el X v /\ ((possible f true /\ meets x f v) \/ (possible g true /\ meets x g v))) by (intros v Hv; apply Kl in Hv; tauto).
      assert (Sr : forall v, el xr v -> el X v /\ ((possible f true /\ meets x f v) \/ (possible g true /\ meets x g v))) by (intros v Hv; apply Kr in Hv; tauto).
      split; [|split]; cbn [lo hi].
      + intros v (Xv & [[_ V]|[_ V]]); [assert (E : el xl v) by (apply Kl; auto)|assert (E : el xr v) by (apply Kr; auto)]; destruct E as [E1 E2]; split; cbn [lo hi];
          [clear - HO B1 E1; ord HO|clear - HO B3 E2; ord HO|clear - HO B2 E1; ord HO|clear - HO B4 E2; ord HO].
      + unfold omin. destruct (o_lt (lo xr) (lo xl)) eqn:J; [exists (lo xr); split; [apply Sr; split; [exact A3|exact Xr]|clear - HO A3; ord HO]|exists (lo xl); split; [apply Sl; split; [exact A1|exact Xl]|clear - HO A1; ord HO]].
      + unfold omax. destruct (o_lt (hi xl) (hi xr)) eqn:J; [exists (hi xr); split; [apply Sr; split; [exact Xr|exact A4]|clear - HO A4; ord HO]|exists (hi xl); split; [apply Sl; split; [exact Xl|exact A2]|clear - HO A2; ord HO]].
    - injection H as <- _. apply Hu; [|exact Xl]. intros v. rewrite Kl. tauto.
    - injection H as <- _. apply Hu; [|exact Xr]. intros v. rewrite Kr. tauto.
    - exfalso. assert (Np : bcontains (or_value l r) true = false).
      { destruct (bcontains (or_value l r) true) eqn:Eb; [|reflexivity]. exfalso. assert (Po : possible (GOr f g) true) by (apply Mc; now apply bmember_iff). apply possible_or in Po as (p & q & Pp & Pq & Q). destruct p, q; try discriminate Q; auto. }
      rewrite Np in Ex. discriminate Ex.
  Qed.

  (** ** When the disjunction fails *)
  Lemma side_outcome f c X : legal f -> proper X -> conjunctive f = true -> one_sided x f -> mentions x f = true -> occurs_as x X f -> single f \/ possible f true -> build dbg f = Ret c ->
    (exists Z, dconstrain dbg x X c false true = Ret (Z, true) /\ proper Z /\ (possible f true -> exists v, el X v /\ meets x f v))
    \/ (dconstrain dbg x X c false true = FailFast /\ possible f true /\ ~ exists v, el X v /\ meets x f v).
  Proof.
    intros L PX C S M Oc Sd E. destruct (possible_dec HO dbg f true L) as [P|P].
    - destruct (conj_exact f c X false true L PX C S Oc P E) as [(Z & D & PZ & K)|[D K]].
      + left. exists Z. rewrite M in D. split; [exact D|]. split; [exact PZ|]. intros _. apply (proper_iff HO) in PZ as (v & Hv). exists v. now apply K.
      + right. auto.
    - left. destruct Sd as [Sd|Sd]; [|contradiction]. destruct f as [b|s|r s t|f|f g|f g]; try contradiction. rewrite (rel_build HO dbg r s t L) in E. injection E as <-.
      exists X. rewrite (rel_impossible HO dbg x r s t X false true L P), M. cbn [andb negb orb]. split; [reflexivity|]. split; [exact PX|]. intros Q. contradiction.
  Qed.
  Theorem disjunction_outcome f g X : legal (GOr f g) -> proper X -> conjunctive f = true -> conjunctive g = true -> one_sided x (GOr f g) -> mentions x f = true -> mentions x g = true ->
    occurs_as x X (GOr f g) -> single f \/ possible f true -> single g \/ possible g true ->
    let can := possible (GOr f g) true /\ (possible f true -> exists v, el X v /\ meets x f v) /\ (possible g true -> exists v, el X v /\ meets x g v) in
    (can -> exists Z, constrain_by dbg x X (GOr f g) = Ret Z) /\ (~ can -> constrain_by dbg x X (GOr f g) = FailFast).
  Proof.
    intros L PX C1 C2 [S1 S2] M1 M2 [O1 O2] D1 D2 can. pose proof L as L0. apply legal_or in L as [L1 L2]. unfold constrain_by. cbn [build].
    destruct (build_ok HO dbg f L1) as (l & El & _ & Ml). destruct (build_ok HO dbg g L2) as (r & Er & _ & Mr).
    destruct (build_ok HO dbg _ L0) as (c & Ec & _ & Mc). cbn [build] in Ec. rewrite El, Er in Ec |- *. cbn [bind] in Ec |- *. injection Ec as <-.
    destruct (c_or_shape l r) as [Es|(_ & Il & _)]; [|exfalso; pose proof (not_cond_mentions HO dbg x f l L1 El Il C1); congruence].
    unfold constrain. rewrite Es in Mc |- *. cbn [cset] in Mc. cbn [dconstrain].
    destruct (side_outcome f l X L1 PX C1 S1 M1 O1 D1 El) as [(xl & Dl & Pl & Kl)|(Dl & Pf & Kl)]; rewrite Dl; cbn [bind]; [|split; [intros (_ & Q & _); exfalso; auto|reflexivity]].
    destruct (side_outcome g r X L2 PX C2 S2 M2 O2 D2 Er) as [(xr & Dr & Pr & Kr)|(Dr & Pg & Kr)]; rewrite Dr; cbn [bind]; [|split; [intros (_ & _ & Q); exfalso; auto|reflexivity]].
    rewrite orb_false_r. cbn [orb andb]. destruct (bcontains (or_value l r) true) eqn:Eb.
    - split; [intros _|intros N; exfalso; apply N; split; [apply Mc; now apply bmember_iff|auto]]. cbn [expects bind].
      destruct (proper_oks HO xl Pl) as [A1 A2], (proper_oks HO xr Pr) as [A3 A4]. pose proof (omin_l HO _ _ A1 A3) as B1. pose proof (omax_l HO _ _ A2 A4) as B3. unfold proper in Pl.
      rewrite (mk_proper HO) by (clear - HO B1 B3 Pl; ord HO). destruct (cpossible l), (cpossible r); cbn [andb bind expects]; eauto.
    - split; [intros (Po & _); exfalso; apply Mc, bmember_iff in Po; congruence|reflexivity].
  Qed.
End Cond.
