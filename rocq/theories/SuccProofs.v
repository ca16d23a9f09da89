(** Proofs about constraints applied one after the other (C83). *)
From Coq Require Import Bool List Arith.
From Verif Require Import Outcome SetModel Spec SetProofs SetProofs2 Num NumLaws IntervalModel IvlSpec IvlProofs ConstrainModel CondSpec
  ConstrainProofs ConstrainProofs2 ConstrainProofs3 ConstrainProofs4 ConstrainProofs5 ConstrainProofs6 ConjSpec ConstrainProofs7 SuccSpec.
Import ListNotations.

Section Succ.
  Context {O : ordty} (HO : ord_laws O) (dbg : bool) (x : nat).
  Implicit Types (X Y Z : ivl O) (f g : cform O).

  Lemma tmentions_rebind Y (t : term O) : tmentions x (trebind x Y t) = tmentions x t.
  Proof. destruct t as [i X|a]; cbn; [|reflexivity]. destruct (Nat.eqb i x) eqn:E; cbn; now rewrite E. Qed.
  Lemma trebind_other Y (t : term O) : tmentions x t = false -> trebind x Y t = t.
  Proof. destruct t as [i X|a]; cbn; [|reflexivity]. now intros ->. Qed.
  Lemma tel_rebind Y (t : term O) v : tmentions x t = true -> (tel (trebind x Y t) v <-> el Y v).
  Proof. destruct t as [i X|a]; cbn; [|discriminate]. intros ->. reflexivity. Qed.
  Lemma mentions_rebind Y f : mentions x (rebind x Y f) = mentions x f.
  Proof. induction f; cbn; try congruence. now rewrite !tmentions_rebind. Qed.
  Lemma plain_rebind Y f : plain (rebind x Y f) = plain f.
  Proof. induction f; cbn; congruence. Qed.
  Lemma comparisons_rebind Y f : comparisons (rebind x Y f) = comparisons f.
  Proof. induction f; cbn; congruence. Qed.
  Lemma unmixed_rebind Y f : unmixed (rebind x Y f) = unmixed f.
  Proof. induction f; cbn; rewrite ?plain_rebind, ?comparisons_rebind; congruence. Qed.
  Lemma conjunctive_rebind Y f : conjunctive (rebind x Y f) = conjunctive f.
  Proof. induction f; cbn; rewrite ?plain_rebind; congruence. Qed.
  Lemma nnf_rebind Y f : forall p, nnf p (rebind x Y f) = rebind x Y (nnf p f).
  Proof.
    induction f as [b|s|R s t|f IH|f IHf g IHg|f IHf g IHg]; intros p; cbn [rebind nnf]; try (destruct p; reflexivity).
    - rewrite plain_rebind. destruct (plain f); [destruct p; reflexivity|apply IH].
    - rewrite IHf, IHg. destruct p; reflexivity.
    - rewrite IHf, IHg. destruct p; reflexivity.
  Qed.
  Lemma one_sided_rebind Y f : one_sided x f -> one_sided x (rebind x Y f).
  Proof. induction f; cbn; rewrite ?tmentions_rebind; tauto. Qed.
  Lemma legal_rebind Y f : proper Y -> legal f -> legal (rebind x Y f).
  Proof.
    intros PY [A B]. split.
    - clear B. induction f; cbn in *; try tauto. destruct s as [i X|a], t as [j X'|b]; cbn in *; try destruct (Nat.eqb i x); try destruct (Nat.eqb j x); tauto.
    - clear A. induction f; cbn in *; tauto.
  Qed.
  Lemma occurs_rebind Y f : occurs_as x Y (rebind x Y f).
  Proof.
    unfold occurs_as. induction f; cbn; try tauto. split; [destruct s as [i X|a]|destruct t as [i X|a]]; cbn; try tauto; destruct (Nat.eqb i x) eqn:E; auto; intros ->; now rewrite Nat.eqb_refl in E.
  Qed.
  Lemma narrows_rebind X Y f : proper Y -> narrows x X f -> narrows x Y (rebind x Y f).
  Proof.
    intros PY (L & U & C & S & M & _). repeat split.
    1, 2: now apply (legal_rebind Y f PY L).
    - now rewrite unmixed_rebind.
    - now rewrite nnf_rebind, conjunctive_rebind.
    - rewrite nnf_rebind. now apply one_sided_rebind.
    - now rewrite mentions_rebind.
    - apply occurs_rebind.
  Qed.
  Lemma narrows_and X f g : narrows x X f -> narrows x X g -> narrows x X (GAnd f g).
  Proof.
    intros ((L1 & B1) & U1 & C1 & S1 & M1 & O1) ((L2 & B2) & U2 & C2 & S2 & M2 & O2). repeat split; cbn; auto; try (now rewrite ?U1, ?C1, ?M1); try tauto.
  Qed.
  (** A value of both intervals satisfies both versions of the condition. *)
  Lemma meets_rebind X Y f v : conjunctive f = true -> one_sided x f -> occurs_as x X f -> el X v -> el Y v -> (meets x (rebind x Y f) v <-> meets x f v).
  Proof.
    intros C S Oc Xv Yv. induction f as [b|s|R s t|f IH|f IHf g IHg|f IHf g IHg]; cbn [rebind meets]; try tauto.
    - change (GRel R (trebind x Y s) (trebind x Y t)) with (rebind x Y (GRel R s t)). rewrite mentions_rebind. destruct (mentions x (GRel R s t)) eqn:Me; [|split; intros _ ?; discriminate].
      destruct (S Me) as [_ Xo]. destruct Oc as [Os Ot]. unfold solution. rewrite !tmentions_rebind.
      destruct (tmentions x s) eqn:Ms, (tmentions x t) eqn:Mt; try discriminate Xo.
      + rewrite (trebind_other Y t Mt), (tel_rebind Y s v Ms). assert (E : tel s v). { destruct s as [i X'|]; [|discriminate]. cbn in Ms. apply Nat.eqb_eq in Ms. cbn. now rewrite (Os Ms). }
        split; intros H _; (destruct (H eq_refl) as [(_ & _ & W)|(Q & _)]; [|discriminate Q]); left; auto.
      + rewrite (trebind_other Y s Ms), (tel_rebind Y t v Mt). assert (E : tel t v). { destruct t as [i X'|]; [|discriminate]. cbn in Mt. apply Nat.eqb_eq in Mt. cbn. now rewrite (Ot Mt). }
        split; intros H _; (destruct (H eq_refl) as [(Q & _)|(_ & _ & W)]; [discriminate Q|]); right; auto.
    - cbn in C. apply andb_true_iff in C as [C1 C2]. destruct S as [S1 S2], Oc as [O1 O2]. now rewrite IHf, IHg.
  Qed.
  (** What is possible for the narrower interval is possible for the wider one. *)
  Lemma possible_rebind X Y f b : occurs_as x X f -> (forall v, el Y v -> el X v) -> possible (rebind x Y f) b -> possible f b.
  Proof.
    intros Oc I. revert b. induction f as [c|s|R s t|f IH|f IHf g IHg|f IHf g IHg]; intros b H; cbn [rebind] in H; try exact H.
    - apply possible_rel in H as (u & w & Hu & Hw & Hr). destruct Oc as [Os Ot]. apply possible_rel. exists u, w.
      split; [|split; [|exact Hr]].
      + destruct (tmentions x s) eqn:Ms; [|now rewrite (trebind_other Y s Ms) in Hu]. apply (tel_rebind Y s u Ms) in Hu. destruct s as [i X'|]; [|discriminate]. cbn in Ms. apply Nat.eqb_eq in Ms. cbn. rewrite (Os Ms). auto.
      + destruct (tmentions x t) eqn:Mt; [|now rewrite (trebind_other Y t Mt) in Hw]. apply (tel_rebind Y t w Mt) in Hw. destruct t as [i X'|]; [|discriminate]. cbn in Mt. apply Nat.eqb_eq in Mt. cbn. rewrite (Ot Mt). auto.
    - apply possible_not in H. apply possible_not. now apply IH.
    - destruct Oc as [O1 O2]. apply possible_and in H as (p & q & A & B & E). apply possible_and. exists p, q. auto.
    - destruct Oc as [O1 O2]. apply possible_or in H as (p & q & A & B & E). apply possible_or. exists p, q. auto.
  Qed.
  Lemma narrows_exact X f : proper X -> narrows x X f -> possible f true ->
    ((exists v, el X v /\ meets x (nnf true f) v) -> exists Z, constrain_by dbg x X f = Ret Z)
    /\ ((~ exists v, el X v /\ meets x (nnf true f) v) -> constrain_by dbg x X f = FailFast)
    /\ forall Z, constrain_by dbg x X f = Ret Z -> forall v, el Z v <-> el X v /\ meets x (nnf true f) v.
  Proof. intros PX (L & U & C & S & M & Oc) P. exact (conjunction_exact HO dbg x f X L PX U C S M Oc P). Qed.
  Lemma narrows_proper X f Y : proper X -> narrows x X f -> constrain_by dbg x X f = Ret Y -> proper Y /\ forall v, el Y v -> el X v.
  Proof. intros PX (L & _ & _ & _ & _ & Oc) E. destruct (constrain_within HO dbg x f X Y L PX Oc E) as [A B]. split; [exact A|]. exact B. Qed.
  Lemma outcomes X f : proper X -> narrows x X f -> possible f true -> (exists Z, constrain_by dbg x X f = Ret Z) \/ (constrain_by dbg x X f = FailFast /\ ~ exists v, el X v /\ meets x (nnf true f) v).
  Proof.
    intros PX N P. destruct N as (L & U & C & S & M & Oc). pose proof (legal_nnf f L true) as L'. destruct (build_ok HO dbg _ L') as (c & E & _ & Mb).
    assert (P' : possible (nnf true f) true). { apply Mb. destruct (build_ok HO dbg f L) as (c' & E' & _ & Mb'). rewrite (build_nnf HO dbg f L U), E' in E. injection E as ->. now apply Mb'. }
    assert (Oc' : occurs_as x X (nnf true f)) by now apply all_terms_nnf.
    unfold constrain_by. rewrite <- (build_nnf HO dbg f L U), E. cbn [bind]. unfold constrain.
    destruct (conj_exact HO dbg x (nnf true f) c X false false L' PX C S Oc' P' E) as [(Z & D & PZ & K)|[D K]]; rewrite D; cbn [bind orb].
    - rewrite mentions_nnf, M. cbn [expects bind]. eauto.
    - right. split; [reflexivity|exact K].
  Qed.
  Lemma occurs_nnf X f : occurs_as x X f -> occurs_as x X (nnf true f).
  Proof. apply all_terms_nnf. Qed.

  Theorem successive X Y f g : proper X -> narrows x X f -> narrows x X g -> possible f true -> constrain_by dbg x X f = Ret Y -> possible (rebind x Y g) true ->
    (exists Z W, constrain_by dbg x Y (rebind x Y g) = Ret Z /\ constrain_by dbg x X (GAnd f g) = Ret W /\ same Z W)
    \/ (constrain_by dbg x Y (rebind x Y g) = FailFast /\ constrain_by dbg x X (GAnd f g) = FailFast).
  Proof.
    intros PX Nf Ng Pf E Pg'. destruct (narrows_proper X f Y PX Nf E) as [PY I].
    pose proof (narrows_rebind X Y g PY Ng) as Ng'. pose proof Ng as (_ & _ & Cg & Sg & _ & Og).
    pose proof (possible_rebind X Y g true Og I Pg') as Pg. pose proof (narrows_and X f g Nf Ng) as Na.
    assert (Pa : possible (GAnd f g) true) by (apply possible_and; exists true, true; auto).
    destruct (narrows_exact X f PX Nf Pf) as (_ & _ & Kf). specialize (Kf Y E).
    destruct (narrows_exact Y _ PY Ng' Pg') as (_ & _ & Kg). rewrite nnf_rebind in Kg.
    destruct (narrows_exact X _ PX Na Pa) as (_ & _ & Ka). cbn [nnf meets] in Ka.
    assert (Q : forall v, el Y v -> (meets x (rebind x Y (nnf true g)) v <-> meets x (nnf true g) v)).
    { intros v Yv. apply (meets_rebind X Y); auto. now apply occurs_nnf. }
    assert (T : forall v, (el Y v /\ meets x (rebind x Y (nnf true g)) v) <-> (el X v /\ meets x (nnf true f) v /\ meets x (nnf true g) v)).
    { intros v. split; [intros [A B]; pose proof (proj1 (Q v A) B); apply Kf in A; tauto|intros (A & B & C)]. assert (Yv : el Y v) by (apply Kf; auto). split; [exact Yv|now apply Q]. }
    destruct (outcomes Y _ PY Ng' Pg') as [[Z EZ]|[EZ NZ]]; destruct (outcomes X _ PX Na Pa) as [[W EW]|[EW NW]].
    - left. exists Z, W. split; [exact EZ|]. split; [exact EW|]. intros v. rewrite (Kg Z EZ), (Ka W EW). apply T.
    - exfalso. destruct (narrows_proper Y _ Z PY Ng' EZ) as [PZ _]. apply (proper_iff HO) in PZ as [v Hv]. apply NW. exists v. cbn [nnf meets]. apply T. now apply (Kg Z EZ).
    - exfalso. destruct (narrows_proper X _ W PX Na EW) as [PW _]. apply (proper_iff HO) in PW as [v Hv]. apply NZ. exists v. rewrite nnf_rebind. apply T. now apply (Ka W EW).
    - right. auto.
  Qed.
  Theorem either_order X Y1 Y2 Z1 Z2 f g : proper X -> narrows x X f -> narrows x X g -> possible f true -> possible g true ->
    constrain_by dbg x X f = Ret Y1 -> possible (rebind x Y1 g) true -> constrain_by dbg x Y1 (rebind x Y1 g) = Ret Z1 ->
    constrain_by dbg x X g = Ret Y2 -> possible (rebind x Y2 f) true -> constrain_by dbg x Y2 (rebind x Y2 f) = Ret Z2 -> same Z1 Z2.
  Proof.
    intros PX Nf Ng Pf Pg E1 P1 F1 E2 P2 F2.
    destruct (successive X Y1 f g PX Nf Ng Pf E1 P1) as [(A1 & W1 & G1 & H1 & S1)|[G1 _]]; rewrite F1 in G1; [|discriminate]. injection G1 as <-.
    destruct (successive X Y2 g f PX Ng Nf Pg E2 P2) as [(A2 & W2 & G2 & H2 & S2)|[G2 _]]; rewrite F2 in G2; [|discriminate]. injection G2 as <-.
    assert (Pa : possible (GAnd f g) true) by (apply possible_and; exists true, true; auto). assert (Pb : possible (GAnd g f) true) by (apply possible_and; exists true, true; auto).
    destruct (narrows_exact X _ PX (narrows_and X f g Nf Ng) Pa) as (_ & _ & Ka). destruct (narrows_exact X _ PX (narrows_and X g f Ng Nf) Pb) as (_ & _ & Kb).
    intros v. rewrite (S1 v), (S2 v), (Ka _ H1 v), (Kb _ H2 v). cbn [nnf meets]. tauto.
  Qed.
  Theorem repeated X Y f : proper X -> narrows x X f -> possible f true -> constrain_by dbg x X f = Ret Y -> possible (rebind x Y f) true ->
    exists Z, constrain_by dbg x Y (rebind x Y f) = Ret Z /\ same Z Y.
  Proof.
    intros PX Nf Pf E P'. destruct (narrows_proper X f Y PX Nf E) as [PY I]. pose proof (narrows_rebind X Y f PY Nf) as N'. pose proof Nf as (_ & _ & Cf & Sf & _ & Of).
    destruct (narrows_exact X f PX Nf Pf) as (_ & _ & Kf). specialize (Kf Y E). destruct (narrows_exact Y _ PY N' P') as (Ex & _ & K). rewrite nnf_rebind in K, Ex.
    assert (Q : forall v, el Y v -> meets x (rebind x Y (nnf true f)) v). { intros v Yv. apply (meets_rebind X Y); auto; [now apply occurs_nnf|]. now apply Kf. }
    destruct Ex as [Z EZ]. { apply (proper_iff HO) in PY as [v Hv]. exists v. auto. }
    exists Z. split; [exact EZ|]. intros v. rewrite (K Z EZ). split; [tauto|]. intros Yv. auto.
  Qed.
  Theorem narrower X X' Z Z' f : proper X -> proper X' -> (forall v, el X' v -> el X v) -> narrows x X f -> possible (rebind x X' f) true ->
    constrain_by dbg x X f = Ret Z -> constrain_by dbg x X' (rebind x X' f) = Ret Z' -> forall v, el Z' v <-> el X' v /\ el Z v.
  Proof.
    intros PX PX' I Nf P' E E'. pose proof Nf as (_ & _ & Cf & Sf & _ & Of). pose proof (possible_rebind X X' f true Of I P') as P. pose proof (narrows_rebind X X' f PX' Nf) as N'.
    destruct (narrows_exact X f PX Nf P) as (_ & _ & Kf). specialize (Kf Z E). destruct (narrows_exact X' _ PX' N' P') as (_ & _ & K). rewrite nnf_rebind in K. specialize (K Z' E').
    intros v. rewrite K, Kf. split; [intros [A B]|intros (A & _ & B)]; pose proof (meets_rebind X X' (nnf true f) v Cf Sf (occurs_nnf X f Of) (I v A) A); pose proof (I v A); tauto.
  Qed.

  (** ** Discrete values: a condition that has an element left stays possible *)
  Lemma meets_possible X Y f v : o_disc O = true -> legal f -> conjunctive f = true -> one_sided x f -> occurs_as x X f -> el X v -> el Y v -> possible f true -> meets x f v -> possible (rebind x Y f) true.
  Proof.
    intros D L C S Oc Xv Yv. induction f as [b|s|R s t|f IH|f IHf g IHg|f IHf g IHg]; cbn [rebind]; intros P M; try exact P.
    - cbn [meets] in M. destruct (mentions x (GRel R s t)) eqn:Me.
      + assert (M' : meets x (GRel R (trebind x Y s) (trebind x Y t)) v). { change (meets x (rebind x Y (GRel R s t)) v). apply (meets_rebind X Y); auto. cbn [meets]. rewrite Me. exact M. }
        cbn [meets] in M'. rewrite D in M'. change (GRel R (trebind x Y s) (trebind x Y t)) with (rebind x Y (GRel R s t)) in M' at 1. rewrite mentions_rebind in M'.
        destruct (M' Me) as [(_ & A & w & B & H)|(_ & A & w & B & H)]; apply possible_rel; [exists v, w|exists w, v]; auto.
      + cbn in Me. apply orb_false_iff in Me as [M1 M2]. now rewrite (trebind_other Y s M1), (trebind_other Y t M2).
    - cbn in C. assert (E : rebind x Y (GNot f) = GNot f). { clear - C. assert (K : forall g, plain g = true -> rebind x Y g = g) by (induction g; cbn; intros H; try discriminate; try apply andb_true_iff in H as [? ?]; f_equal; auto). cbn. now rewrite K. }
      cbn in E. now rewrite E.
    - cbn in C. apply andb_true_iff in C as [C1 C2]. destruct S as [S1 S2], Oc as [O1 O2], M as [M1 M2]. apply legal_and in L as [L1 L2].
      apply possible_and in P as (p & q & A & B & E). destruct p, q; try discriminate E. apply possible_and. exists true, true. auto.
    - cbn in C. assert (K : forall g, plain g = true -> rebind x Y g = g) by (induction g0; cbn; intros H; try discriminate; try apply andb_true_iff in H as [? ?]; f_equal; auto).
      apply andb_true_iff in C as [C1 C2]. now rewrite (K f C1), (K g C2).
  Qed.
  Lemma possible_nnf f b : legal f -> unmixed f = true -> (possible (nnf true f) b <-> possible f b).
  Proof.
    intros L U. destruct (build_ok HO dbg _ (legal_nnf f L true)) as (c & E & _ & M). destruct (build_ok HO dbg f L) as (c' & E' & _ & M'). rewrite (build_nnf HO dbg f L U), E' in E. injection E as ->. now rewrite <- M, <- M'.
  Qed.
  Lemma stays_possible X Y f v : o_disc O = true -> proper Y -> narrows x X f -> possible f true -> el X v -> el Y v -> meets x (nnf true f) v -> possible (rebind x Y f) true.
  Proof.
    intros D PY (L & U & C & S & _ & Oc) P Xv Yv M. apply possible_nnf; [now apply legal_rebind|now rewrite unmixed_rebind|]. rewrite nnf_rebind.
    apply (meets_possible X Y _ v D); auto; [now apply legal_nnf|now apply occurs_nnf|]. now apply possible_nnf.
  Qed.
  Theorem successive_discrete X W f g : o_disc O = true -> proper X -> narrows x X f -> narrows x X g -> possible f true -> possible g true -> constrain_by dbg x X (GAnd f g) = Ret W ->
    exists Y Z, constrain_by dbg x X f = Ret Y /\ constrain_by dbg x Y (rebind x Y g) = Ret Z /\ same Z W.
  Proof.
    intros D PX Nf Ng Pf Pg E. pose proof (narrows_and X f g Nf Ng) as Na. assert (Pa : possible (GAnd f g) true) by (apply possible_and; exists true, true; auto).
    destruct (narrows_exact X _ PX Na Pa) as (_ & _ & Ka). specialize (Ka W E). cbn [nnf meets] in Ka. destruct (narrows_proper X _ W PX Na E) as [PW _].
    apply (proper_iff HO) in PW as [v Hv]. apply Ka in Hv as (Xv & Vf & Vg). destruct (narrows_exact X f PX Nf Pf) as (Ex & _ & Kf). destruct Ex as [Y EY]; [eauto|].
    destruct (narrows_proper X f Y PX Nf EY) as [PY I]. assert (Yv : el Y v) by (apply (Kf Y EY); auto). pose proof (stays_possible X Y g v D PY Ng Pg Xv Yv Vg) as Pg'.
    exists Y. destruct (successive X Y f g PX Nf Ng Pf EY Pg') as [(Z & W' & EZ & EW & Sm)|[_ F]]; rewrite E in *; [|discriminate]. injection EW as <-. eauto.
  Qed.
  Theorem repeated_discrete X Y f : o_disc O = true -> proper X -> narrows x X f -> possible f true -> constrain_by dbg x X f = Ret Y ->
    exists Z, constrain_by dbg x Y (rebind x Y f) = Ret Z /\ same Z Y.
  Proof.
    intros D PX Nf Pf E. destruct (narrows_proper X f Y PX Nf E) as [PY I]. apply (repeated X Y f PX Nf Pf E). pose proof PY as PY'. apply (proper_iff HO) in PY' as [v Hv].
    apply (stays_possible X Y f v D PY Nf Pf (I v Hv) Hv). destruct (narrows_exact X f PX Nf Pf) as (_ & _ & Kf). now apply (Kf Y E).
  Qed.
End Succ.
