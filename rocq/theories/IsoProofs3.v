(** Runs with narrower inputs: programs. *)
From Coq Require Import Bool List Arith Lia.
From Verif Require Import Outcome SetModel Spec SetProofs SetProofs2 Num NumLaws IntervalModel IvlSpec IvlProofs ArithProofs ArithProofs2
  ConstrainModel CondSpec ConstrainProofs ConstrainProofs2 ConstrainProofs3 ConstrainProofs4 ConstrainProofs5
  MathModel MathSpec ValueTypes LangModel LangSpec LangProofs LangProofs2 IsoSpec IsoProofs IsoProofs2.
Import ListNotations.

Section Iso.
  Context {N : num} {M : option (math N)} (HP : prog_type N M) (dbg : bool).
  Let HN := prog_laws N M HP.
  Let HO := nl_ord N HN.

  (** ** Shapes of conditions *)
  Definition named (V : list (arg N)) (o : operand N) : Prop := forall i, op_is i o = true -> nth_error V i = Some (op_arg o).
  Lemma c_and_ops (P : operand N -> Prop) c d : c_ops P c -> c_ops P d -> c_ops P (c_and c d).
  Proof. intros A B. unfold c_and. destruct (is_cond c || is_cond d); [split; assumption|]. destruct c, d; exact I. Qed.
  Lemma c_or_ops (P : operand N -> Prop) c d : c_ops P c -> c_ops P d -> c_ops P (c_or c d).
  Proof. intros A B. unfold c_or. destruct (is_cond c || is_cond d); [split; assumption|]. destruct c, d; exact I. Qed.
  Lemma c_ops_mono (P Q : operand N -> Prop) c : (forall o, P o -> Q o) -> c_ops P c -> c_ops Q c.
  Proof. intros H. induction c; cbn; intuition. Qed.
  Lemma operand_named V (e : expr N) x : ieval M dbg V e = Ret x -> named V (operand_for e x).
  Proof.
    intros E i H. destruct e; try discriminate H. destruct x as [v|X]; [discriminate H|]. cbn in *. apply Nat.eqb_eq in H. subst. unfold ilookup in E.
    destruct (nth_error V i); [|discriminate]. now injection E as ->.
  Qed.
  Definition leaf_mentions (i : nat) (c : cond N) : bool :=
    match c with CLe _ l r | CLt _ l r | CEq _ l r | CNe _ l r => op_is i l || op_is i r | _ => false end.
  Lemma c_rel_cases r (l s : operand N) c : c_rel dbg r l s = Ret c ->
    (exists p q, l = OpVal (Sc p) /\ s = OpVal (Sc q) /\ c = CBool (rel_holds r p q)) \/ (cpure c /\ cconj c /\ (forall P : operand N -> Prop, P l -> P s -> c_ops P c) /\ forall i, leaf_mentions i c = op_is i l || op_is i s).
  Proof.
    intros E.
    assert (A : (exists p q, l = OpVal (Sc p) /\ s = OpVal (Sc q) /\ c = CBool (rel_holds r p q))
      \/ c_rel dbg r l s = match r with REq => c_eq dbg l s | RNe => c_ne dbg l s | RLt => c_lt dbg l s | RLe => c_le dbg l s | RGt => c_gt dbg l s | RGe => c_ge dbg l s end).
    { destruct l as [i X|[p|X]]; try (right; reflexivity). destruct s as [i X|[q|X]]; try (right; reflexivity). left. injection E as <-. eauto. }
    destruct A as [A|A]; [left; exact A|right]. rewrite A in E. destruct r; apply bind_inv in E as (v & _ & E); injection E as <-; cbn; repeat split; auto; intros i; apply orb_comm.
  Qed.
  Lemma test_named V (t : test N) : forall c, itest M dbg V t = Ret c -> c_ops (named V) c.
  Proof.
    induction t as [r e f|t IH|t IHt u IHu|t IHt u IHu]; intros c E; step_in E.
    - apply bind_inv in E as (x & Ex & E). apply bind_inv in E as (y & Ey & E). destruct (c_rel_cases r _ _ c E) as [(p & q & _ & _ & ->)|(_ & _ & K & _)]; [exact I|].
      apply K; eapply operand_named; eassumption.
    - apply bind_inv in E as (d & Ed & E). exact (c_not_ops dbg _ d (IH d Ed) c E).
    - apply bind_inv in E as (d & Ed & E). apply bind_inv in E as (d' & Ed' & E). injection E as <-. apply c_and_ops; auto.
    - apply bind_inv in E as (d & Ed & E). apply bind_inv in E as (d' & Ed' & E). injection E as <-. apply c_or_ops; auto.
  Qed.
  Lemma test_wfc V (t : test N) : tclean M dbg V t -> forall c, itest M dbg V t = Ret c -> wfc c.
  Proof.
    induction t as [r e f|t IH|t IHt u IHu|t IHt u IHu]; intros Cl c E; step_in E.
    - destruct Cl as [Ce Cf]. apply bind_inv in E as (x & Ex & E). apply bind_inv in E as (y & Ey & E).
      destruct (rel_wfc_for HP dbg r e f x y (eclean_number dbg V e x Ce Ex) (eclean_number dbg V f y Cf Ey)) as (c1 & E1 & W). rewrite E in E1. injection E1 as <-. exact W.
    - apply bind_inv in E as (d & Ed & E). destruct (c_not_ok HO dbg d (IH Cl d Ed)) as (c1 & E1 & W & _). rewrite E in E1. injection E1 as <-. exact W.
    - destruct Cl as [C1 C2]. apply bind_inv in E as (d & Ed & E). apply bind_inv in E as (d' & Ed' & E). injection E as <-. apply (c_and_ok HO); auto.
    - destruct Cl as [C1 C2]. apply bind_inv in E as (d & Ed & E). apply bind_inv in E as (d' & Ed' & E). injection E as <-. apply (c_or_ok HO); auto.
  Qed.
  Lemma test_pure V (t : test N) : all_vary (map is_iv V) t = true -> forall c, itest M dbg V t = Ret c -> cpure c.
  Proof.
    induction t as [r e f|t IH|t IHt u IHu|t IHt u IHu]; intros A c E; step_in E; cbn [all_vary] in A.
    - apply bind_inv in E as (x & Ex & E). apply bind_inv in E as (y & Ey & E). destruct (c_rel_cases r _ _ c E) as [(p & q & El & Es & ->)|(K & _)]; [|exact K].
      destruct (kinds dbg V (M := M)) as [Kd _]. rewrite <- (Kd e x Ex), <- (Kd f y Ey) in A. apply (f_equal op_arg) in El, Es. rewrite operand_arg in El, Es. subst. discriminate A.
    - apply bind_inv in E as (d & Ed & E). exact (c_not_pure dbg d (IH A d Ed) c E).
    - apply andb_true_iff in A as [A1 A2]. apply bind_inv in E as (d & Ed & E). apply bind_inv in E as (d' & Ed' & E). injection E as <-.
      pose proof (IHt A1 d Ed) as P. unfold c_and. rewrite (cpure_cond d P). split; auto.
    - apply andb_true_iff in A as [A1 A2]. apply bind_inv in E as (d & Ed & E). apply bind_inv in E as (d' & Ed' & E). injection E as <-.
      pose proof (IHt A1 d Ed) as P. unfold c_or. rewrite (cpure_cond d P). split; auto.
  Qed.
  Lemma test_conj V (t : test N) : tclean M dbg V t -> all_vary (map is_iv V) t = true -> forall c, itest M dbg V t = Ret c ->
    (conj_test true t = true -> cconj c) /\ (conj_test false t = true -> forall n, c_not dbg c = Ret n -> cconj n).
  Proof.
    induction t as [r e f|t IH|t IHt u IHu|t IHt u IHu]; intros Cl A c E; pose proof (test_pure V _ A c E) as Pu; step_in E; cbn [all_vary] in A.
    - apply bind_inv in E as (x & Ex & E). apply bind_inv in E as (y & Ey & E). destruct (c_rel_cases r _ _ c E) as [(p & q & El & Es & ->)|(_ & K & _)]; [destruct Pu|].
      split; [intros _; exact K|]. intros _ n En. destruct r; cbn in E;
        (assert (G : is_cond c = true) by (apply cpure_cond; exact Pu)); destruct c; try destruct Pu; try destruct K; cbn in En; try (apply bind_inv in En as (m & _ & En); injection En as <-; exact I);
        destruct (operand_for e x) as [?|[?|?]], (operand_for f y) as [?|[?|?]]; cbn in E; try discriminate E; apply bind_inv in E as (m & _ & E); discriminate E.
    - apply bind_inv in E as (d & Ed & E). destruct (IH Cl A d Ed) as [I1 I2]. cbn [conj_test negb]. split; [intros H; exact (I2 H c E)|].
      intros H n En. rewrite (c_not_invol HO dbg d (test_pure V t A d Ed) (test_wfc V t Cl d Ed) c E) in En. injection En as <-. exact (I1 H).
    - apply andb_true_iff in A as [A1 A2]. destruct Cl as [C1 C2]. apply bind_inv in E as (d & Ed & E). apply bind_inv in E as (d' & Ed' & E). injection E as <-.
      cbn [conj_test]. split; [|discriminate]. intros H. apply andb_true_iff in H as [H1 H2]. pose proof (test_pure V t A1 d Ed) as P. unfold c_and. rewrite (cpure_cond d P).
      split; [exact (proj1 (IHt C1 A1 d Ed) H1)|exact (proj1 (IHu C2 A2 d' Ed') H2)].
    - apply andb_true_iff in A as [A1 A2]. destruct Cl as [C1 C2]. apply bind_inv in E as (d & Ed & E). apply bind_inv in E as (d' & Ed' & E). injection E as <-.
      cbn [conj_test]. split; [discriminate|]. intros H n En. apply andb_true_iff in H as [H1 H2]. pose proof (test_pure V t A1 d Ed) as P. pose proof (test_pure V u A2 d' Ed') as P'.
      unfold c_or in En. rewrite (cpure_cond d P) in En. cbn [orb c_not] in En. apply bind_inv in En as (m & _ & En). rewrite (cpure_cond d P), (cpure_cond d' P') in En. cbn [andb] in En.
      apply bind_inv in En as (n1 & E1 & En). apply bind_inv in En as (n2 & E2 & En). injection En as <-.
      split; [exact (proj2 (IHt C1 A1 d Ed) H1 n1 E1)|exact (proj2 (IHu C2 A2 d' Ed') H2 n2 E2)].
  Qed.
  Lemma c_not_leaf i (c n : cond N) : leaf_mentions i c = true -> c_not dbg c = Ret n -> leaf_mentions i n = true.
  Proof.
    destruct c; cbn [leaf_mentions c_not]; intros H E; try discriminate H; apply bind_inv in E as (m & _ & E); injection E as <-; cbn; try exact H; now rewrite orb_comm.
  Qed.
  Lemma test_leaf V (t : test N) i : solo t = true -> names i t = true -> forall c, itest M dbg V t = Ret c ->
    i < length V /\ forall X, nth_error V i = Some (Iv X) -> leaf_mentions i c = true.
  Proof.
    induction t as [r e f|t IH|t IHt u IHu|t IHt u IHu]; intros So Na c E; try discriminate So; step_in E; cbn [names] in Na.
    - apply bind_inv in E as (x & Ex & E). apply bind_inv in E as (y & Ey & E).
      assert (G : forall (g : expr N) z, ieval M dbg V g = Ret z -> is_var i g = true -> i < length V /\ forall X, nth_error V i = Some (Iv X) -> op_is i (operand_for g z) = true).
      { intros g z Eg Hv. destruct (var_bound dbg V g i z Hv Eg) as [Hn ->]. split; [apply nth_error_Some; rewrite Hn; discriminate|]. intros X HX. rewrite Hn in HX. injection HX as ->.
        cbn. apply Nat.eqb_refl. }
      assert (L : i < length V) by (apply orb_true_iff in Na as [Na|Na]; [exact (proj1 (G e x Ex Na))|exact (proj1 (G f y Ey Na))]). split; [exact L|]. intros X HX.
      assert (K : op_is i (operand_for e x) || op_is i (operand_for f y) = true).
      { apply orb_true_iff in Na as [Na|Na]; [rewrite (proj2 (G e x Ex Na) X HX)|rewrite (proj2 (G f y Ey Na) X HX), orb_true_r]; reflexivity. }
      destruct (c_rel_cases r _ _ c E) as [(p & q & El & Es & _)|(_ & _ & _ & Q)]; [|now rewrite Q]. rewrite El, Es in K. discriminate K.
    - apply bind_inv in E as (d & Ed & E). destruct (IH So Na d Ed) as [A B]. split; [exact A|]. intros X HX. exact (c_not_leaf i d c (B X HX) E).
  Qed.
  (** [constrain] by one comparison that is possible returns. *)
  Lemma leaf_returns x (X : ivl N) c : wfc c -> proper X -> c_ops (as_X x X) c -> leaf_mentions x c = true -> member (cset c) true -> exists Z, constrain dbg x X c = Ret Z.
  Proof.
    intros W PX Oc L V. unfold constrain.
    assert (S : forall o a, as_X x X o -> op_is x o = true -> ael (op_arg o) a -> el X a) by (intros o a H1 H2 Ha; rewrite (H1 H2) in Ha; exact Ha).
    destruct c as [b|b|v l r|v l r|v l r|v l r| |]; try discriminate L; destruct W as (_ & _ & _ & Wx), Oc as [O1 O2]; cbn [cset leaf_mentions] in V, L; pose proof V as V0; apply Wx in V0 as (a & b & Ha & Hb & Hab).
    - destruct (le_keep HO dbg x v l r X a b false false V Ha Hb Hab) as (Z & E & _); eauto. rewrite E. cbn [bind orb]. rewrite L. cbn. eauto.
    - destruct (lt_keep HO dbg x v l r X a b false false V Ha Hb Hab) as (Z & E & _); eauto. rewrite E. cbn [bind orb]. rewrite L. cbn. eauto.
    - destruct (eq_keep HO dbg x v l r X a b false false V Ha Hb Hab) as (Z & E & _); eauto. rewrite E. cbn [bind orb]. rewrite L. cbn. eauto.
    - destruct (ne_keep HO dbg x v l r X a b false false V Ha Hb Hab) as (Z & E & _); eauto. rewrite E. cbn [bind orb]. rewrite L. cbn. eauto.
  Qed.

  (** ** Conditions of the enclosing branches *)
  Definition entry2 (V V' : list (arg N)) (br : branch N) (c c' : cond N) : Prop :=
    cle c c' /\ wfc c /\ wfc c' /\ member (cset c) true /\ c_ops (named V) c /\ c_ops (named V') c' /\ (good_branch br = true -> cconj c)
    /\ forall i, solo (snd br) = true -> names i (snd br) = true -> i < length V /\ forall X, nth_error V i = Some (Iv X) -> leaf_mentions i c = true.
  Inductive entries (V V' : list (arg N)) : list (branch N) -> list (cond N) -> list (cond N) -> Prop :=
  | en_nil : entries V V' [] [] []
  | en_cons b c c' bs cs cs' : entry2 V V' b c c' -> entries V V' bs cs cs' -> entries V V' (b :: bs) (c :: cs) (c' :: cs').
  Lemma named_app V a o : named V o -> named (V ++ [a]) o.
  Proof. intros H i Hi. specialize (H i Hi). rewrite nth_error_app1; [exact H|]. apply nth_error_Some. rewrite H. discriminate. Qed.
  Lemma entries_app V V' bs cs cs' a a' : entries V V' bs cs cs' -> entries (V ++ [a]) (V' ++ [a']) bs cs cs'.
  Proof.
    intros H. induction H as [|b c c' bs cs cs' (L & W & W' & T & O1 & O2 & G & Le) _ IH]; constructor; auto.
    repeat (split; [assumption|]). split; [exact (c_ops_mono _ _ c (named_app V a) O1)|]. split; [exact (c_ops_mono _ _ c' (named_app V' a') O2)|]. split; [exact G|].
    intros i So Na. destruct (Le i So Na) as [Li K]. split; [rewrite app_length; cbn; lia|]. intros X. rewrite nth_error_app1 by exact Li. apply K.
  Qed.
  Lemma entries_nth V V' bs cs cs' k : entries V V' bs cs cs' -> forall c', nth_error cs' k = Some c' -> exists b c, nth_error bs k = Some b /\ nth_error cs k = Some c /\ entry2 V V' b c c'.
  Proof.
    intros H. revert k. induction H as [|b c c' bs cs cs' E _ IH]; intros [|k] d' Ed; try discriminate; cbn in *; [injection Ed as <-; eauto|eauto].
  Qed.
  Lemma kexp_iso V V' bs cs cs' k : entries V V' bs cs cs' -> forall c', ikexp cs' k = Ret c' -> all_k good_branch bs k = true ->
    exists c, ikexp cs k = Ret c /\ cle c c' /\ wfc c /\ wfc c' /\ member (cset c) true /\ c_ops (named V) c /\ c_ops (named V') c' /\ cconj c.
  Proof.
    intros H. induction k as [k|k IHk l IHl]; intros c' E A; cbn [ikexp all_k] in *.
    - destruct (nth_error cs' k) as [d'|] eqn:Ed; [|discriminate]. injection E as <-. destruct (entries_nth V V' bs cs cs' k H d' Ed) as (b & c & Eb & Ec & L & W & W' & T & O1 & O2 & G & _).
      rewrite Eb in A. rewrite Ec. exists c. repeat (split; [assumption || reflexivity|]). exact (G A).
    - apply bind_inv in E as (d' & Ed' & E). apply bind_inv in E as (e' & Ee' & E). injection E as <-. apply andb_true_iff in A as [A1 A2].
      destruct (IHk d' Ed' A1) as (d & Ed & L & W & W' & T & O1 & O2 & G), (IHl e' Ee' A2) as (e & Ee & L1 & W1 & W1' & T1 & O3 & O4 & G1).
      exists (c_and d e). rewrite Ed, Ee. split; [reflexivity|]. split; [exact (c_and_cle HO d e d' e' W W1 W' W1' L L1)|]. split; [now apply (c_and_ok HO)|]. split; [now apply (c_and_ok HO)|].
      split; [apply (c_and_ok HO d e W W1); exists true, true; auto|]. split; [now apply c_and_ops|]. split; [now apply c_and_ops|].
      unfold c_and. destruct (is_cond d || is_cond e); [split; assumption|]. destruct d, e; exact I.
  Qed.

  (** ** Runs *)
  Lemma assign_rle (R Y Z : ivl N) : oks R -> proper Y -> free_assign_partial R Y = Ret Z -> oks Z /\ rle R Z /\ rle Y Z /\ proper Z.
  Proof.
    intros [R1 R2] HY E. unfold free_assign_partial, iassign in E. apply bind_inv in E as (? & _ & E). injection E as <-. destruct (proper_oks HO Y HY) as [Y1 Y2]. unfold proper, oks, rle in *. cbn.
    split; [split; [now apply omin_ok|now apply omax_ok]|].
    unfold omin, omax. destruct (o_lt (lo Y) (lo R)) eqn:E1, (o_lt (hi R) (hi Y)) eqn:E2; repeat split; ord HO.
  Qed.
  Lemma assign_iso (R Y R' Y' Z Z' : ivl N) : rle R R' -> rle Y Y' -> free_assign_partial R Y = Ret Z -> free_assign_partial R' Y' = Ret Z' -> rle Z Z'.
  Proof.
    intros [A B] [C D] E E'. unfold free_assign_partial, iassign in *. apply bind_inv in E as (? & _ & E). injection E as <-. apply bind_inv in E' as (? & _ & E'). injection E' as <-.
    split; cbn; [apply (omin_le HO); assumption|apply (omax_le HO); assumption].
  Qed.
  Lemma rle_oks (R : ivl N) : oks R -> rle R R. Proof. intros [A B]. now apply rle_refl. Qed.
  Lemma grow_rle p : forall V cs R Z, pclean M dbg V cs p -> oks R -> LangModel.irun M dbg V cs p R = Ret Z -> oks Z /\ rle R Z.
  Proof.
    induction p as [|e|p IHp q IHq|e p IHp|f IHf p IHp|t p IHp q IHq|x k p IHp]; intros V cs R Z Cl HR E; cbn [LangModel.irun pclean] in *.
    - injection E as <-. split; [exact HR|exact (rle_oks R HR)].
    - apply bind_inv in E as (x & Ex & E). destruct (assign_rle R (as_ivl x) Z HR (as_ivl_proper x (eclean_number dbg V e x Cl Ex)) E) as (A & B & _). auto.
    - destruct Cl as [C1 C2]. apply bind_inv in E as (Y & EY & E). destruct (IHp V cs R Y C1 HR EY) as [A B]. destruct (IHq V cs Y Z C2 A E) as [A' B'].
      split; [exact A'|]. exact (rle_trans HO R Y Z B B').
    - destruct Cl as [C1 C2]. apply bind_inv in E as (x & Ex & E). exact (IHp _ _ R Z (C2 x Ex) HR E).
    - destruct Cl as [C1 C2]. apply bind_inv in E as (Y & EY & E). exact (IHp _ _ R Z (C2 Y EY) HR E).
    - destruct Cl as [_ Cl]. apply bind_inv in E as (c & Ec & E). destruct (Cl c Ec) as [C1 C2]. apply bind_inv in E as (Y & EY & E).
      assert (G : oks Y /\ rle R Y).
      { destruct (cpossible c); [exact (IHp _ _ R Y (C1 eq_refl) HR EY)|]. injection EY as <-. split; [exact HR|exact (rle_oks R HR)]. }
      destruct G as [A B]. destruct (cpossible_not c); [|injection E as <-; auto]. apply bind_inv in E as (c' & Ec' & E).
      destruct (IHq _ _ Y Z (C2 eq_refl c' Ec') A E) as [A' B']. split; [exact A'|]. exact (rle_trans HO R Y Z B B').
    - apply bind_inv in E as (a & Ea & E). apply bind_inv in E as (c & Ec & E). destruct a as [v|X]; [discriminate|]. apply bind_inv in E as (Y & EY & E).
      exact (IHp _ _ R Z (Cl X c Y Ea Ec EY) HR E).
  Qed.
  Lemma possible_not_iff (c : cond N) : cpossible_not c = bcontains (cset c) false.
  Proof. destruct c; try reflexivity. now destruct b. Qed.
  Lemma kinds_same (V V' : list (arg N)) : Forall2 ale V V' -> map is_iv V = map is_iv V'.
  Proof. intros H. induction H as [|x y V V' H _ IH]; [reflexivity|]. cbn. rewrite IH. f_equal. destruct x, y; try destruct H; reflexivity. Qed.

  Lemma run_iso p : forall V V' bs cs cs' R' Z', Forall aproper V -> Forall2 ale V V' -> entries V V' bs cs cs' ->
    well_formed (map is_iv V) bs p = true -> pclean M dbg V' cs' p -> pfuns (monotone M) p -> oks R' -> LangModel.irun M dbg V' cs' p R' = Ret Z' ->
    pclean M dbg V cs p /\ forall R, oks R -> rle R R' ->
      (forall Z, LangModel.irun M dbg V cs p R = Ret Z -> rle Z Z' /\ (complete p = true -> proper Z))
      /\ (solo_constraints (map snd bs) p = true -> exists Z, LangModel.irun M dbg V cs p R = Ret Z).
  Proof.
    induction p as [|e|p IHp q IHq|e p IHp|f IHf p IHp|t p IHp q IHq|x k p IHp]; intros V V' bs cs cs' R' Z' PV HV HB WF Cl Fu HR' E';
      cbn [LangModel.irun pclean pfuns well_formed complete solo_constraints] in *.
    - split; [exact I|]. intros R HR HRR. injection E' as <-. split; [|eauto]. intros Z E. injection E as <-. split; [exact HRR|discriminate].
    - apply bind_inv in E' as (x' & Ex' & E'). destruct (proj1 (eval_iso HP dbg V V' PV HV) e Cl Fu x' Ex') as (Cn & x & Ex & Px & Lx). split; [exact Cn|]. intros R HR HRR. rewrite Ex. cbn [bind].
      assert (As : rle (as_ivl x) (as_ivl x')).
      { apply (subset_rle HO); [exact (as_ivl_proper x Px)|]. destruct x, x'; try destruct Lx; [intros v Hv; exact Hv|exact Lx]. }
      split.
      + intros Z E. destruct (assign_rle R (as_ivl x) Z HR (as_ivl_proper x Px) E) as (_ & _ & _ & PZ). split; [exact (assign_iso _ _ _ _ _ _ HRR As E E')|auto].
      + intros _. pose proof (as_ivl_proper x Px) as Pa. unfold free_assign_partial, iassign, proper in *.
        assert (Q : assigned (as_ivl x) = true) by (unfold assigned; clear - HO Pa; ord HO). rewrite Q. cbn. eauto.
    - apply andb_true_iff in WF as [W1 W2]. destruct Cl as [C1 C2], Fu as [F1 F2]. apply bind_inv in E' as (Y' & EY' & E').
      destruct (grow_rle p V' cs' R' Y' C1 HR' EY') as [OY' GY']. destruct (IHp V V' bs cs cs' R' Y' PV HV HB W1 C1 F1 HR' EY') as [D1 K1].
      destruct (IHq V V' bs cs cs' Y' Z' PV HV HB W2 C2 F2 OY' E') as [D2 K2]. split; [split; assumption|]. intros R HR HRR. destruct (K1 R HR HRR) as [A1 B1]. split.
      + intros Z E. apply bind_inv in E as (Y & EY & E). destruct (A1 Y EY) as [LY PY]. destruct (grow_rle p V cs R Y D1 HR EY) as [OY _]. destruct (K2 Y OY LY) as [A2 _]. destruct (A2 Z E) as [LZ PZ].
        split; [exact LZ|]. intros H. apply orb_true_iff in H as [H|H]; [|exact (PZ H)]. exact (rle_proper HO Y Z (PY H) (proj2 (grow_rle q V cs Y Z D2 OY E))).
      + intros H. apply andb_true_iff in H as [H1 H2]. destruct (B1 H1) as [Y EY]. rewrite EY. cbn [bind]. destruct (A1 Y EY) as [LY _]. destruct (grow_rle p V cs R Y D1 HR EY) as [OY _].
        exact (proj2 (K2 Y OY LY) H2).
    - destruct Cl as [C1 C2], Fu as [F1 F2]. apply bind_inv in E' as (x' & Ex' & E'). destruct (proj1 (eval_iso HP dbg V V' PV HV) e C1 F1 x' Ex') as (Cn & x & Ex & Px & Lx).
      assert (W2 : well_formed (map is_iv (V ++ [x])) bs p = true) by (rewrite map_app; cbn [map]; destruct (kinds dbg V (M := M)) as [Kd _]; now rewrite (Kd e x Ex)).
      assert (PV2 : Forall aproper (V ++ [x])) by (apply Forall_app; auto). assert (HV2 : Forall2 ale (V ++ [x]) (V' ++ [x'])) by (apply Forall2_app; auto).
      destruct (IHp _ _ bs cs cs' R' Z' PV2 HV2 (entries_app V V' bs cs cs' x x' HB) W2 (C2 x' Ex') F2 HR' E') as [D2 K2].
      split; [split; [exact Cn|]; intros z Ez; rewrite Ex in Ez; injection Ez as <-; exact D2|]. intros R HR HRR. rewrite Ex. cbn [bind]. exact (K2 R HR HRR).
    - apply andb_true_iff in WF as [WF W2]. apply andb_true_iff in WF as [Wc W1]. destruct Cl as [C1 C2], Fu as [F1 F2]. apply bind_inv in E' as (Y' & EY' & E').
      destruct (IHf V V' bs cs cs' ivl_default Y' PV HV HB W1 C1 F1 (oks_default HP) EY') as [D1 K1]. destruct (K1 ivl_default (oks_default HP) (rle_oks _ (oks_default HP))) as [A1 B1].
      assert (G : forall Y, LangModel.irun M dbg V cs f ivl_default = Ret Y -> pclean M dbg (V ++ [Iv Y]) cs p /\ forall R, oks R -> rle R R' ->
        (forall Z, LangModel.irun M dbg (V ++ [Iv Y]) cs p R = Ret Z -> rle Z Z' /\ (complete p = true -> proper Z))
        /\ (solo_constraints (map snd bs) p = true -> exists Z, LangModel.irun M dbg (V ++ [Iv Y]) cs p R = Ret Z)).
      { intros Y EY. destruct (A1 Y EY) as [LY PY]. apply (IHp (V ++ [Iv Y]) (V' ++ [Iv Y']) bs cs cs' R' Z'); auto.
        - apply Forall_app. split; [exact PV|]. constructor; [exact (PY Wc)|constructor].
        - apply Forall2_app; [exact HV|]. constructor; [exact (rle_subset HO Y Y' LY)|constructor].
        - now apply entries_app.
        - rewrite map_app. exact W2. }
      split; [split; [exact D1|]; intros Y EY; exact (proj1 (G Y EY))|]. intros R HR HRR. split.
      + intros Z E. apply bind_inv in E as (Y & EY & E). exact (proj1 (proj2 (G Y EY) R HR HRR) Z E).
      + intros H. apply andb_true_iff in H as [H1 H2]. destruct (B1 H1) as [Y EY]. rewrite EY. cbn [bind]. exact (proj2 (proj2 (G Y EY) R HR HRR) H2).
    - apply andb_true_iff in WF as [W1 W2]. destruct Cl as [Ct Cl], Fu as (Ft & F1 & F2). apply bind_inv in E' as (c' & Ec' & E'). destruct (Cl c' Ec') as [C1 C2].
      destruct (proj2 (eval_iso HP dbg V V' PV HV) t Ct Ft c' Ec') as (Cn & Wc' & c & Ec & Wc & Lc). pose proof (cle_set c c' Lc) as Bc.
      apply bind_inv in E' as (Y' & EY' & E'). rewrite cpossible_iff, ?possible_not_iff in *.
      assert (GY' : oks Y' /\ rle R' Y').
      { destruct (bcontains (cset c') true); [exact (grow_rle p _ _ R' Y' (C1 eq_refl) HR' EY')|]. injection EY' as <-. split; [exact HR'|exact (rle_oks R' HR')]. }
      destruct GY' as [OY' GY'].
      assert (GZ' : rle Y' Z').
      { destruct (bcontains (cset c') false); [|injection E' as <-; exact (rle_oks Y' OY')]. apply bind_inv in E' as (n' & En' & E'). exact (proj2 (grow_rle q _ _ Y' Z' (C2 eq_refl n' En') OY' E')). }
      assert (Mono : forall b : bool, bcontains (cset c) b = true -> bcontains (cset c') b = true) by (intros b Hb; apply bmember_iff, Bc, bmember_iff, Hb).
      assert (P1 : bcontains (cset c) true = true -> pclean M dbg V (c :: cs) p /\ forall R, oks R -> rle R R' ->
        (forall Z, LangModel.irun M dbg V (c :: cs) p R = Ret Z -> rle Z Y' /\ (complete p = true -> proper Z))
        /\ (solo_constraints (t :: map snd bs) p = true -> exists Z, LangModel.irun M dbg V (c :: cs) p R = Ret Z)).
      { intros Hb. pose proof (Mono true Hb) as Hb'. rewrite Hb' in EY', C1.
        apply (IHp V V' ((map is_iv V, true, t) :: bs) (c :: cs) (c' :: cs') R' Y'); auto. constructor; [|exact HB].
        split; [exact Lc|]. split; [exact Wc|]. split; [exact Wc'|]. split; [now apply bmember_iff|]. split; [exact (test_named V t c Ec)|]. split; [exact (test_named V' t c' Ec')|]. split.
        - cbn. intros H. apply andb_true_iff in H as [H1 H2]. exact (proj1 (test_conj V t Cn H1 c Ec) H2).
        - cbn. intros i So Na. exact (test_leaf V t i So Na c Ec). }
      destruct (c_not_ok HO dbg c Wc) as (n & En & Wn & Mn).
      assert (P2 : bcontains (cset c) false = true -> pclean M dbg V (n :: cs) q /\ forall R, oks R -> rle R Y' ->
        (forall Z, LangModel.irun M dbg V (n :: cs) q R = Ret Z -> rle Z Z' /\ (complete q = true -> proper Z))
        /\ (solo_constraints (t :: map snd bs) q = true -> exists Z, LangModel.irun M dbg V (n :: cs) q R = Ret Z)).
      { intros Hb. pose proof (Mono false Hb) as Hb'. rewrite Hb' in E', C2. apply bind_inv in E' as (n' & En' & E').
        destruct (c_not_ok HO dbg c' Wc') as (m' & Em' & Wn' & _). rewrite En' in Em'. injection Em' as <-.
        apply (IHq V V' ((map is_iv V, false, t) :: bs) (n :: cs) (n' :: cs') Y' Z'); auto. constructor; [|exact HB].
        split; [exact (c_not_cle HO dbg c c' n n' Wc Wc' Lc En En')|]. split; [exact Wn|]. split; [exact Wn'|]. split; [apply Mn; now apply bmember_iff|].
        split; [exact (c_not_ops dbg _ c (test_named V t c Ec) n En)|]. split; [exact (c_not_ops dbg _ c' (test_named V' t c' Ec') n' En')|]. split.
        - cbn. intros H. apply andb_true_iff in H as [H1 H2]. exact (proj2 (test_conj V t Cn H1 c Ec) H2 n En).
        - cbn. intros i So Na. destruct (test_leaf V t i So Na c Ec) as [Li K]. split; [exact Li|]. intros X HX. exact (c_not_leaf i c n (K X HX) En). }
      split.
      { split; [exact Cn|]. intros d Ed. rewrite Ec in Ed. injection Ed as <-. rewrite cpossible_iff, possible_not_iff. split; [intros Hb; exact (proj1 (P1 Hb))|].
        intros Hb m Em. rewrite En in Em. injection Em as <-. exact (proj1 (P2 Hb)). }
      intros R HR HRR. rewrite Ec. cbn [bind]. rewrite cpossible_iff, possible_not_iff.
      assert (First : forall Y, (if bcontains (cset c) true then LangModel.irun M dbg V (c :: cs) p R else Ret R) = Ret Y -> oks Y /\ rle Y Y' /\ (bcontains (cset c) true = true -> complete p = true -> proper Y)).
      { intros Y EY. destruct (bcontains (cset c) true).
        - destruct (P1 eq_refl) as [D1 K1]. destruct (proj1 (K1 R HR HRR) Y EY) as [LY PY]. split; [exact (proj1 (grow_rle p V (c :: cs) R Y D1 HR EY))|]. auto.
        - injection EY as <-. split; [exact HR|]. split; [exact (rle_trans HO R R' Y' HRR GY')|discriminate]. }
      split.
      + intros Z E. apply bind_inv in E as (Y & EY & E). destruct (First Y EY) as (OY & LY & PY).
        destruct (bcontains (cset c) false) eqn:Bf.
        * rewrite En in E. cbn [bind] in E. destruct (P2 eq_refl) as [D2 K2]. destruct (proj1 (K2 Y OY LY) Z E) as [LZ PZ]. split; [exact LZ|]. intros H. apply andb_true_iff in H as [_ H]. exact (PZ H).
        * injection E as <-. split; [exact (rle_trans HO Y Y' Z' LY GZ')|]. intros H. apply andb_true_iff in H as [H _]. apply PY; [|exact H].
          destruct (wfc_wf HO c Wc) as [_ [b Hb]]. apply bmember_iff in Hb. destruct b; [exact Hb|]. rewrite Bf in Hb. discriminate Hb.
      + intros H. apply andb_true_iff in H as [H1 H2].
        assert (EY : exists Y, (if bcontains (cset c) true then LangModel.irun M dbg V (c :: cs) p R else Ret R) = Ret Y).
        { destruct (bcontains (cset c) true); [|eauto]. exact (proj2 (proj2 (P1 eq_refl) R HR HRR) H1). }
        destruct EY as [Y EY]. destruct (First Y EY) as (OY & LY & _). rewrite EY. cbn [bind]. destruct (bcontains (cset c) false); [|eauto]. rewrite En. cbn [bind].
        exact (proj2 (proj2 (P2 eq_refl) Y OY LY) H2).
    - apply andb_true_iff in WF as [WF W4]. apply andb_true_iff in WF as [WF W3]. apply andb_true_iff in WF as [W1 W2].
      apply bind_inv in E' as (a' & Ea' & E'). apply bind_inv in E' as (c' & Ec' & E'). destruct a' as [v|X']; [discriminate|]. apply bind_inv in E' as (Y' & EY' & E').
      destruct (lookup_iso V V' x (Iv X') HV Ea') as (a & Ea & La). destruct a as [v|X]; [destruct La|]. cbn [ale] in La.
      assert (EX : forall (U : list (arg N)) W, ilookup U x = Ret (Iv W) -> nth_error U x = Some (Iv W)) by (intros U W H; unfold ilookup in H; destruct (nth_error U x); [|discriminate]; now injection H as ->).
      pose proof (lookup_proper V x (Iv X) PV Ea) as PX. destruct (kexp_iso V V' bs cs cs' k HB c' Ec' W2) as (c & Ec & L & W & W' & T & O1 & O2 & G).
      assert (Ox : forall (U : list (arg N)) S d, nth_error U x = Some (Iv S) -> c_ops (named U) d -> c_ops (as_X x S) d).
      { intros U S d HU. apply c_ops_mono. intros o Ho Hi. specialize (Ho x Hi). rewrite HU in Ho. now injection Ho as <-. }
      pose proof (Ox V X c (EX V X Ea) O1) as Oc. pose proof (Ox V' X' c' (EX V' X' Ea') O2) as Oc'.
      assert (K : forall Y, constrain dbg x X c = Ret Y -> pclean M dbg (V ++ [Iv Y]) cs p /\ forall R, oks R -> rle R R' ->
        (forall Z, LangModel.irun M dbg (V ++ [Iv Y]) cs p R = Ret Z -> rle Z Z' /\ (complete p = true -> proper Z))
        /\ (solo_constraints (map snd bs) p = true -> exists Z, LangModel.irun M dbg (V ++ [Iv Y]) cs p R = Ret Z)).
      { intros Y EY. destruct (constrain_iso HO dbg x c c' X X' Y Y' L W W' G PX La Oc Oc' T EY EY') as [LY PY].
        apply (IHp (V ++ [Iv Y]) (V' ++ [Iv Y']) bs cs cs' R' Z'); auto.
        - apply Forall_app. split; [exact PV|]. constructor; [exact PY|constructor].
        - apply Forall2_app; [exact HV|]. constructor; [exact (rle_subset HO Y Y' LY)|constructor].
        - now apply entries_app.
        - rewrite map_app. exact W4.
        - exact (Cl X' c' Y' Ea' Ec' EY'). }
      split.
      { intros X0 c0 Y E0 E1 EY. rewrite Ea in E0. injection E0 as <-. rewrite Ec in E1. injection E1 as <-. exact (proj1 (K Y EY)). }
      intros R HR HRR. rewrite Ea, Ec. cbn [bind]. split.
      + intros Z E. apply bind_inv in E as (Y & EY & E). exact (proj1 (proj2 (K Y EY) R HR HRR) Z E).
      + intros H. apply andb_true_iff in H as [H1 H2].
        assert (Rt : exists Y, constrain dbg x X c = Ret Y).
        { destruct k as [k|]; [|discriminate H1]. cbn [ikexp some_k] in Ec, W3. destruct (nth_error cs k) as [d|] eqn:Ed; [|discriminate Ec]. injection Ec as ->.
          cbn [ikexp] in Ec'. destruct (nth_error cs' k) as [d'|] eqn:Ed'; [|discriminate Ec']. destruct (entries_nth V V' bs cs cs' k HB d' Ed') as (b & c0 & Eb & Ec0 & En). rewrite Ed in Ec0. injection Ec0 as <-.
          rewrite (map_nth_error snd k bs Eb) in H1. rewrite Eb in W3. destruct En as (_ & _ & _ & _ & _ & _ & _ & Le). destruct b as [[ks pol] t]. cbn [snd] in *.
          destruct (Le x H1 W3) as [_ Lm]. exact (leaf_returns x X c W PX Oc (Lm X (EX V X Ea)) T). }
        destruct Rt as [Y EY]. rewrite EY. cbn [bind]. exact (proj2 (proj2 (K Y EY) R HR HRR) H2).
  Qed.
End Iso.
