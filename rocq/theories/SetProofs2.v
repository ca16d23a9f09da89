(** Histories of sets, formulas of four-valued logic, sign sets, printing. *)
From Coq Require Import List NArith ZArith Bool Lia Arith.
From Verif Require Import Outcome SetModel Spec SetProofs.
Import ListNotations.

Lemma bind_ret {A B} (x : outcome A) (f : A -> outcome B) b :
  bind x f = Ret b <-> exists a, x = Ret a /\ f a = Ret b.
Proof. destruct x; cbn; split; try discriminate; try (intros (a0 & H & _); discriminate); [eauto|]. intros (a0 & H & H'). injection H as <-. exact H'. Qed.

Section Hist.
  Context {E : enum_type} (HE : enum_ok E).

  Lemma set_step_spec dbg (s : vset E) (o : set_op E) :
    set_op_wf o -> wf_set s -> set_op_legal dbg o ->
    exists s', set_step dbg s o = Ret s' /\ wf_set s'
      /\ forall v, member s' v <-> (member s v /\ ~ set_op_resets o) \/ set_op_gives o v.
  Proof.
    intros Hw Hs Hl. destruct o as [w|t| |t]; cbn in *.
    - destruct (assign_value_spec HE s w Hl) as (s' & -> & Hwf & Hm). exists s'. repeat split; auto; intros.
      + apply Hm in H. tauto.
      + apply Hm. tauto.
    - destruct (assign_set_spec dbg s t Hw Hl) as (s' & -> & Hwf & Hm). exists s'. repeat split; auto; intros.
      + apply Hm in H. tauto.
      + apply Hm. tauto.
    - exists (set_reset s). split; [reflexivity|]. split; [apply wf_empty|].
      intros v. pose proof (@member_empty E v). unfold set_reset. unfold set_empty in H. tauto.
    - exists (set_reset_to s t). split; [reflexivity|]. split; [exact Hw|].
      intros v. unfold set_reset_to. destruct t; cbn in *. tauto.
  Qed.

  Lemma set_step_illegal dbg (s : vset E) (o : set_op E) :
    set_op_wf o -> ~ set_op_legal dbg o -> set_step dbg s o = FailFast.
  Proof.
    intros Hw Hl. destruct o as [w|t| |t]; cbn in *; try tauto.
    - now apply assign_value_unlisted.
    - destruct dbg; [|exfalso; tauto]. apply assign_set_fail; [exact Hw|].
      intros v Hv. apply Hl. right. now exists v.
  Qed.

  Lemma given_cons (o : set_op E) ops v :
    given_since_reset (o :: ops) v <->
    given_since_reset ops v \/ (set_op_gives o v /\ Forall (fun p => ~ set_op_resets p) ops).
  Proof.
    split.
    - intros (pre & p & post & Heq & Hg & Hf). destruct pre as [|q pre]; cbn in Heq; injection Heq as -> ->.
      + right. tauto.
      + left. exists pre, p, post. tauto.
    - intros [(pre & p & post & -> & Hg & Hf)|(Hg & Hf)].
      + exists (o :: pre), p, post. cbn. tauto.
      + exists [], o, ops. cbn. tauto.
  Qed.

  Lemma set_run_gen dbg (ops : list (set_op E)) : forall s : vset E,
    Forall set_op_wf ops -> wf_set s -> Forall (set_op_legal dbg) ops ->
    exists s', set_run dbg s ops = Ret s' /\ wf_set s'
      /\ forall v, member s' v <-> (member s v /\ Forall (fun p => ~ set_op_resets p) ops) \/ given_since_reset ops v.
  Proof.
    induction ops as [|o ops IH]; intros s Hw Hs Hl.
    - exists s. split; [reflexivity|]. split; [exact Hs|]. intros v. split; intros H.
      + left. split; [exact H|constructor].
      + destruct H as [H|(pre & p & post & Heq & _)]; [tauto|]. now destruct pre.
    - inversion Hw as [|? ? Hw1 Hw2]; inversion Hl as [|? ? Hl1 Hl2]; subst.
      destruct (set_step_spec dbg s o Hw1 Hs Hl1) as (s1 & Hst & Hs1 & Hm1).
      destruct (IH s1 Hw2 Hs1 Hl2) as (s2 & Hrun & Hs2 & Hm2).
      exists s2. cbn. rewrite Hst. cbn. split; [exact Hrun|]. split; [exact Hs2|].
      intros v. rewrite Hm2, Hm1, given_cons. split.
      + intros [([(H1 & H2)|H1] & H3)|H]; [left; split; [exact H1|constructor; assumption]|right; right; tauto|tauto].
      + intros [(H1 & H2)|[H|(H1 & H2)]]; [inversion H2; subst; tauto|tauto|tauto].
  Qed.

  Lemma set_history dbg (ops : list (set_op E)) :
    Forall set_op_wf ops -> Forall (set_op_legal dbg) ops ->
    exists s, set_run dbg set_empty ops = Ret s /\ wf_set s /\ forall v, member s v <-> given_since_reset ops v.
  Proof.
    intros Hw Hl. destruct (set_run_gen dbg ops set_empty Hw wf_empty Hl) as (s & Hr & Hs & Hm).
    exists s. repeat split; auto; intros H.
    - apply Hm in H. destruct H as [(H & _)|H]; [now apply member_empty in H|exact H].
    - apply Hm. tauto.
  Qed.

  Lemma set_op_legal_dec dbg (o : set_op E) : set_op_wf o -> set_op_legal dbg o \/ ~ set_op_legal dbg o.
  Proof.
    destruct o as [v|t| |t]; cbn; intros Hw; try tauto.
    - destruct (find_cases HE v) as [(i & _ & Hi)|(_ & Hn)]; [left; eapply nth_error_In; exact Hi|tauto].
    - destruct dbg; [|tauto]. destruct (set_assigned t) eqn:Ha.
      + left. right. now apply assigned_iff.
      + right. intros [H|(v & Hv)]; [discriminate|]. exact (proj1 (empty_iff t Hw) Ha v Hv).
  Qed.

  Lemma set_history_illegal dbg (ops : list (set_op E)) :
    Forall set_op_wf ops -> ~ Forall (set_op_legal dbg) ops -> set_run dbg set_empty ops = FailFast.
  Proof.
    generalize (@set_empty E). intros s Hw. revert s.
    induction Hw as [|o ops Hw1 Hw2 IH]; intros s Hl; [exfalso; apply Hl; constructor|].
    cbn. destruct (set_op_legal_dec dbg o Hw1) as [H|H].
    - assert (Hstep : exists s', set_step dbg s o = Ret s').
      { destruct o as [v|t| |t]; cbn in *; eauto.
        - destruct (assign_value_spec HE s v H) as (s' & -> & _). eauto.
        - destruct (assign_set_spec dbg s t Hw1 H) as (s' & -> & _). eauto. }
      destruct Hstep as (s' & ->). cbn. apply IH. intros Hf. apply Hl. now constructor.
    - now rewrite (set_step_illegal dbg s o Hw1 H).
  Qed.

  (** Two histories that give the same values since their last reset produce the same object. *)
  Lemma set_history_unique dbg1 dbg2 (ops1 ops2 : list (set_op E)) s1 s2 :
    Forall set_op_wf ops1 -> Forall set_op_wf ops2 ->
    (forall v, given_since_reset ops1 v <-> given_since_reset ops2 v) ->
    set_run dbg1 set_empty ops1 = Ret s1 -> set_run dbg2 set_empty ops2 = Ret s2 -> s1 = s2.
  Proof.
    intros Hw1 Hw2 Hg Hr1 Hr2.
    assert (Hl : forall dbg (ops : list (set_op E)) s, Forall set_op_wf ops -> set_run dbg set_empty ops = Ret s -> Forall (set_op_legal dbg) ops).
    { intros dbg ops s Hw Hr. assert (Hd : Forall (set_op_legal dbg) ops \/ ~ Forall (set_op_legal dbg) ops).
      { clear Hr. induction Hw as [|o l H1 H2 IH]; [left; constructor|].
        destruct (set_op_legal_dec dbg o H1) as [H|H]; [destruct IH as [IH|IH]; [left; now constructor|right; intros Hf; inversion Hf; tauto]|right; intros Hf; inversion Hf; tauto]. }
      destruct Hd as [Hd|Hd]; [exact Hd|]. rewrite (set_history_illegal dbg ops Hw Hd) in Hr. discriminate. }
    destruct (set_history dbg1 ops1 Hw1 (Hl _ _ _ Hw1 Hr1)) as (t1 & H1 & Hwf1 & Hm1).
    destruct (set_history dbg2 ops2 Hw2 (Hl _ _ _ Hw2 Hr2)) as (t2 & H2 & Hwf2 & Hm2).
    assert (t1 = s1) by congruence. assert (t2 = s2) by congruence. subst.
    apply (state_ext HE); auto. intros v. now rewrite Hm1, Hm2.
  Qed.

  (** Construction from an initializer list holds exactly the listed values. *)
  Lemma set_of_list_spec (l : list E) : (forall v, In v l -> In v (ev_values E)) ->
    exists s, set_of_list l = Ret s /\ wf_set s /\ forall v, member s v <-> In v l.
  Proof.
    intros Hl. unfold set_of_list.
    assert (Hg : forall s : vset E, wf_set s -> exists s', set_assign_values s l = Ret s' /\ wf_set s' /\ forall v, member s' v <-> member s v \/ In v l).
    { induction l as [|w l IH]; intros s Hs.
      - exists s. cbn. repeat split; auto; intros; tauto.
      - destruct (assign_value_spec HE s w (Hl w (or_introl eq_refl))) as (s1 & H1 & Hwf & Hm).
        destruct (IH (fun v H => Hl v (or_intror H)) s1 (Hwf Hs)) as (s2 & H2 & Hwf2 & Hm2).
        exists s2. cbn. rewrite H1. cbn. repeat split; auto; intros H.
        + apply Hm2 in H. rewrite Hm in H. intuition.
        + apply Hm2. rewrite Hm. intuition. }
    destruct (Hg set_empty wf_empty) as (s & H & Hwf & Hm). exists s. repeat split; auto; intros Hv.
    - apply Hm in Hv. destruct Hv as [Hv|Hv]; [now apply member_empty in Hv|exact Hv].
    - apply Hm. tauto.
  Qed.

  (** * Equality operators *)
  Lemma set_eq_exact dbg (x y : vset E) :
    wf_set x -> wf_set y -> (exists v, member x v) -> (exists v, member y v) ->
    exists r, set_eq dbg x y = Ret r /\ wf_set r
      /\ (member r true <-> exists v, member x v /\ member y v)
      /\ (member r false <-> exists v w, member x v /\ member y w /\ v <> w).
  Proof.
    intros Hx Hy Hnx Hny. unfold set_eq.
    replace (expects_debug dbg (set_assigned x && set_assigned y)) with (Ret tt).
    2:{ rewrite (proj2 (assigned_iff x Hx) Hnx), (proj2 (assigned_iff y Hy) Hny). now destruct dbg. }
    cbn [bind]. pose proof (mismatch_iff HE x y Hx Hy Hnx Hny) as Hmm. pose proof (anymatch_iff HE x y Hx) as Ham.
    unfold set_compare_eq in *. cbn [fst] in Hmm.
    match goal with |- context [if ?c1 then bassign set_empty true else _] => set (am := c1) in * end.
    match goal with |- context [if ?c2 then bassign _ false else _] => set (mm := c2) in * end.
    eexists. split; [reflexivity|]. split; [apply (two_assign_wf am mm true)|].
    rewrite <- Hmm, <- Ham. split.
    - rewrite (two_assign_member am mm true). cbn. intuition congruence.
    - rewrite (two_assign_member am mm true). cbn. intuition congruence.
  Qed.

  Lemma set_neq_exact dbg (x y : vset E) :
    wf_set x -> wf_set y -> (exists v, member x v) -> (exists v, member y v) ->
    exists r, set_neq dbg x y = Ret r /\ wf_set r
      /\ (member r false <-> exists v, member x v /\ member y v)
      /\ (member r true <-> exists v w, member x v /\ member y w /\ v <> w).
  Proof.
    intros Hx Hy Hnx Hny. unfold set_neq.
    replace (expects_debug dbg (set_assigned x && set_assigned y)) with (Ret tt).
    2:{ rewrite (proj2 (assigned_iff x Hx) Hnx), (proj2 (assigned_iff y Hy) Hny). now destruct dbg. }
    cbn [bind]. pose proof (mismatch_iff HE x y Hx Hy Hnx Hny) as Hmm. pose proof (anymatch_iff HE x y Hx) as Ham.
    unfold set_compare_eq in *. cbn [fst] in Hmm.
    match goal with |- context [if ?c1 then bassign set_empty false else _] => set (am := c1) in * end.
    match goal with |- context [if ?c2 then bassign _ true else _] => set (mm := c2) in * end.
    eexists. split; [reflexivity|]. split; [apply (two_assign_wf am mm false)|].
    rewrite <- Hmm, <- Ham. split.
    - rewrite (two_assign_member am mm false). cbn. intuition congruence.
    - rewrite (two_assign_member am mm false). cbn. intuition congruence.
  Qed.

  Lemma set_eq_debug_empty (x y : vset E) :
    wf_set x -> wf_set y -> ((forall v, ~ member x v) \/ (forall v, ~ member y v)) -> set_eq true x y = FailFast /\ set_neq true x y = FailFast.
  Proof.
    intros Hx Hy H. unfold set_eq, set_neq. cbn.
    replace (set_assigned x && set_assigned y) with false; [split; reflexivity|].
    destruct H as [H|H].
    - now rewrite (proj2 (empty_iff x Hx) H).
    - now rewrite (proj2 (empty_iff y Hy) H), andb_false_r.
  Qed.

  (** * if_else *)
  Lemma set_if_else_spec dbg (c : bset) (t f : vset E) :
    wf_set c -> wf_set t -> wf_set f ->
    (dbg = true -> (member c true -> exists v, member t v) /\ (member c false -> exists v, member f v)) ->
    exists r, set_if_else dbg c t f = Ret r /\ wf_set r
      /\ forall v, member r v <-> (member c true /\ member t v) \/ (member c false /\ member f v).
  Proof.
    intros Hc Ht Hf Hd. unfold set_if_else, possibly, possibly_not.
    pose proof (bmember_iff c true) as Hct. pose proof (bmember_iff c false) as Hcf.
    pose proof (@member_empty E) as Hme.
    destruct (bcontains c true) eqn:Bt.
    - destruct (assign_set_spec dbg set_empty t Ht) as (r1 & H1 & Hw1 & Hm1).
      { destruct dbg; [right; apply Hd; tauto|now left]. }
      rewrite H1. cbn [bind].
      destruct (bcontains c false) eqn:Bf.
      + destruct (assign_set_spec dbg r1 f Hf) as (r2 & H2 & Hw2 & Hm2).
        { destruct dbg; [right; apply Hd; tauto|now left]. }
        rewrite H2. cbn [bind]. exists r2. repeat split; auto using wf_empty; intros Hv.
        * apply Hm2 in Hv. rewrite Hm1 in Hv. specialize (Hme v). tauto.
        * apply Hm2. rewrite Hm1. tauto.
      + cbn [bind]. exists r1. repeat split; auto using wf_empty; intros Hv.
        * apply Hm1 in Hv. specialize (Hme v). tauto.
        * apply Hm1. destruct Hv as [Hv|(Hv & _)]; [tauto|]. apply Hcf in Hv. discriminate.
    - cbn [bind]. destruct (bcontains c false) eqn:Bf.
      + destruct (assign_set_spec dbg set_empty f Hf) as (r2 & H2 & Hw2 & Hm2).
        { destruct dbg; [right; apply Hd; tauto|now left]. }
        rewrite H2. cbn [bind]. exists r2. repeat split; auto using wf_empty; intros Hv.
        * apply Hm2 in Hv. specialize (Hme v). tauto.
        * apply Hm2. destruct Hv as [(Hv & _)|Hv]; [|tauto]. apply Hct in Hv. discriminate.
      + cbn [bind]. exists set_empty. repeat split; auto using wf_empty; intros Hv.
        * now apply Hme in Hv.
        * destruct Hv as [(Hv & _)|(Hv & _)]; [apply Hct in Hv|apply Hcf in Hv]; discriminate.
  Qed.

  (** * Printing *)
  Definition listed_members (s : vset E) (i : nat) (l : list E) : list E :=
    map snd (filter (fun p => N.testbit (state s) (N.of_nat (fst p))) (combine (seq i (length l)) l)).
  Fixpoint separated (l : list E) : list (@token E) :=
    match l with
    | [] => []
    | [v] => [TVal v]
    | v :: l' => TVal v :: TComma :: separated l'
    end.
  Lemma print_loop_spec s l : forall i first,
    print_loop s first i l =
      (if first then separated (listed_members s i l)
       else match listed_members s i l with [] => [] | _ => TComma :: separated (listed_members s i l) end) ++ [TClose].
  Proof.
    induction l as [|v l IH]; intros i first; [now destruct first|].
    cbn [print_loop]. unfold listed_members. cbn [length seq combine filter fst].
    destruct (N.testbit (state s) (N.of_nat i)) eqn:Hb.
    - cbn [map snd]. rewrite IH. fold (listed_members s (S i) l).
      destruct first; cbn [app]; destruct (listed_members s (S i) l); reflexivity.
    - rewrite IH. fold (listed_members s (S i) l). reflexivity.
  Qed.
End Hist.

(** * Formulas *)
Fixpoint form_set (dbg : bool) (s : nat -> bset) (f : form) : outcome bset :=
  match f with
  | FVar n => Ret (s n)
  | FNot f => x <- form_set dbg s f ;; bnot dbg x
  | FAnd f g => x <- form_set dbg s f ;; y <- form_set dbg s g ;; Ret (band x y)
  | FOr f g => x <- form_set dbg s f ;; y <- form_set dbg s g ;; Ret (bor x y)
  | FXor f g => x <- form_set dbg s f ;; y <- form_set dbg s g ;; Ret (bxor x y)
  end.

Lemma form_set_wf dbg (s : nat -> bset) f r : (forall n, wf_set (s n)) -> form_set dbg s f = Ret r -> wf_set r.
Proof.
  intros Hs. revert r. induction f; cbn; intros r H.
  - injection H as <-. apply Hs.
  - apply bind_ret in H as (x & _ & H). eapply bnot_wf; exact H.
  - apply bind_ret in H as (x & _ & H). apply bind_ret in H as (y & _ & H). injection H as <-. apply band_wf.
  - apply bind_ret in H as (x & _ & H). apply bind_ret in H as (y & _ & H). injection H as <-. apply bor_wf.
  - apply bind_ret in H as (x & _ & H). apply bind_ret in H as (y & _ & H). injection H as <-. apply bxor_wf.
Qed.

Lemma form_sound dbg (s : nat -> bset) f r (rho : nat -> bool) :
  (forall n, wf_set (s n)) -> (forall n, In n (form_vars f) -> member (s n) (rho n)) ->
  form_set dbg s f = Ret r -> member r (form_bool rho f).
Proof.
  intros Hs. revert r. induction f as [n|f IHf|f IHf g IHg|f IHf g IHg|f IHf g IHg]; cbn; intros r Hv H.
  - injection H as <-. apply Hv. now left.
  - apply bind_ret in H as (x & Hx & H). apply (bnot_exact dbg x r (form_set_wf _ _ _ _ Hs Hx) H).
    exists (form_bool rho f). split; [auto|reflexivity].
  - apply bind_ret in H as (x & Hx & H). apply bind_ret in H as (y & Hy & H). injection H as <-.
    apply band_exact; try (eapply form_set_wf; eassumption).
    exists (form_bool rho f), (form_bool rho g). repeat split; [apply IHf|apply IHg]; auto; intros; apply Hv, in_or_app; auto.
  - apply bind_ret in H as (x & Hx & H). apply bind_ret in H as (y & Hy & H). injection H as <-.
    apply bor_exact; try (eapply form_set_wf; eassumption).
    exists (form_bool rho f), (form_bool rho g). repeat split; [apply IHf|apply IHg]; auto; intros; apply Hv, in_or_app; auto.
  - apply bind_ret in H as (x & Hx & H). apply bind_ret in H as (y & Hy & H). injection H as <-.
    apply bxor_exact; try (eapply form_set_wf; eassumption).
    exists (form_bool rho f), (form_bool rho g). repeat split; [apply IHf|apply IHg]; auto; intros; apply Hv, in_or_app; auto.
Qed.

Lemma form_bool_ext f r1 r2 : (forall n, In n (form_vars f) -> r1 n = r2 n) -> form_bool r1 f = form_bool r2 f.
Proof.
  induction f as [n|f IHf|f IHf g IHg|f IHf g IHg|f IHf g IHg]; cbn; intros H;
    try (rewrite IHf, IHg by (intros; apply H, in_or_app; auto); reflexivity).
  - apply H. now left.
  - now rewrite IHf.
Qed.

Lemma nodup_app_inv {A} (l1 l2 : list A) : NoDup (l1 ++ l2) -> NoDup l1 /\ NoDup l2 /\ forall x, In x l1 -> In x l2 -> False.
Proof.
  induction l1 as [|a l1 IH]; cbn; intros H.
  - repeat split; [constructor|exact H|tauto].
  - inversion H; subst. destruct (IH H3) as (H4 & H5 & H6). repeat split; auto.
    + constructor; auto. intros Hin. apply H2, in_or_app. auto.
    + intros x [->|Hx] Hx2; [apply H2, in_or_app; auto|eauto].
Qed.

Lemma form_binary_witness (s : nat -> bset) f g (P : bool -> bool -> Prop) :
  NoDup (form_vars f ++ form_vars g) ->
  (exists r1 : nat -> bool, (forall n, In n (form_vars f) -> member (s n) (r1 n)) /\
   exists r2 : nat -> bool, (forall n, In n (form_vars g) -> member (s n) (r2 n)) /\ P (form_bool r1 f) (form_bool r2 g)) ->
  exists rho : nat -> bool, (forall n, In n (form_vars f ++ form_vars g) -> @member bool_enum (s n) (rho n)) /\ P (form_bool rho f) (form_bool rho g).
Proof.
  intros Hnd (r1 & H1 & r2 & H2 & HP). apply nodup_app_inv in Hnd as (_ & _ & Hdis).
  set (rho := fun n => if in_dec Nat.eq_dec n (form_vars f) then r1 n else r2 n).
  assert (E1 : forall n, In n (form_vars f) -> rho n = r1 n).
  { intros n Hn. unfold rho. destruct (in_dec Nat.eq_dec n (form_vars f)); tauto. }
  assert (E2 : forall n, In n (form_vars g) -> rho n = r2 n).
  { intros n Hn. unfold rho. destruct (in_dec Nat.eq_dec n (form_vars f)) as [Hf|]; [|reflexivity]. exfalso; eauto. }
  exists rho. split.
  - intros n Hn. apply in_app_or in Hn as [Hn|Hn]; [rewrite (E1 n Hn)|rewrite (E2 n Hn)]; auto.
  - now rewrite (form_bool_ext f rho r1 E1), (form_bool_ext g rho r2 E2).
Qed.

(** For formulas in which every variable occurs once the value is exact. *)
Lemma form_exact dbg (s : nat -> bset) f (r : bset) :
  (forall n, wf_set (s n)) -> NoDup (form_vars f) -> form_set dbg s f = Ret r ->
  forall t : bool, member r t <-> exists rho : nat -> bool, (forall n, In n (form_vars f) -> member (s n) (rho n)) /\ form_bool rho f = t.
Proof.
  intros Hs Hnd H t. split.
  2:{ intros (rho & Hrho & <-). eapply form_sound; eassumption. }
  revert r Hnd H t. induction f as [n|f IHf|f IHf g IHg|f IHf g IHg|f IHf g IHg]; cbn; intros r Hnd H t Ht.
  - injection H as <-. exists (fun _ => t). split; [|reflexivity]. intros m [<-|[]]. exact Ht.
  - apply bind_ret in H as (x & Hx & H). apply (bnot_exact dbg x r (form_set_wf _ _ _ _ Hs Hx) H) in Ht.
    destruct Ht as (a & Ha & <-). destruct (IHf _ Hnd Hx a Ha) as (rho & H1 & <-). exists rho. auto.
  - apply bind_ret in H as (x & Hx & H). apply bind_ret in H as (y & Hy & H). injection H as <-.
    apply band_exact in Ht; try (eapply form_set_wf; eassumption). destruct Ht as (a & b & Ha & Hb & He).
    destruct (nodup_app_inv _ _ Hnd) as (N1 & N2 & _).
    apply (form_binary_witness s f g (fun a b => a && b = t) Hnd).
    destruct (IHf _ N1 Hx a Ha) as (r1 & H1 & <-). destruct (IHg _ N2 Hy b Hb) as (r2 & H2 & <-). eauto.
  - apply bind_ret in H as (x & Hx & H). apply bind_ret in H as (y & Hy & H). injection H as <-.
    apply bor_exact in Ht; try (eapply form_set_wf; eassumption). destruct Ht as (a & b & Ha & Hb & He).
    destruct (nodup_app_inv _ _ Hnd) as (N1 & N2 & _).
    apply (form_binary_witness s f g (fun a b => a || b = t) Hnd).
    destruct (IHf _ N1 Hx a Ha) as (r1 & H1 & <-). destruct (IHg _ N2 Hy b Hb) as (r2 & H2 & <-). eauto.
  - apply bind_ret in H as (x & Hx & H). apply bind_ret in H as (y & Hy & H). injection H as <-.
    apply bxor_exact in Ht; try (eapply form_set_wf; eassumption). destruct Ht as (a & b & Ha & Hb & He).
    destruct (nodup_app_inv _ _ Hnd) as (N1 & N2 & _).
    apply (form_binary_witness s f g (fun a b => xorb a b = t) Hnd).
    destruct (IHf _ N1 Hx a Ha) as (r1 & H1 & <-). destruct (IHg _ N2 Hy b Hb) as (r2 & H2 & <-). eauto.
Qed.

(** In debug mode evaluation succeeds whenever all variables are assigned. *)
Lemma form_total dbg (s : nat -> bset) f :
  (forall n, wf_set (s n)) -> (forall n, In n (form_vars f) -> exists b, member (s n) b) ->
  exists r, form_set dbg s f = Ret r /\ exists b, member r b.
Proof.
  intros Hs. induction f as [n|f IHf|f IHf g IHg|f IHf g IHg|f IHf g IHg]; cbn; intros Hv.
  - eexists. split; [reflexivity|]. apply Hv. now left.
  - destruct (IHf Hv) as (x & Hx & b & Hb). rewrite Hx. cbn.
    assert (Hwx := form_set_wf _ _ _ _ Hs Hx).
    assert (Hr : exists r, bnot dbg x = Ret r).
    { destruct dbg; [apply bnot_debug; [exact Hwx|now exists b]|now apply bnot_release]. }
    destruct Hr as (r & Hr). exists r. split; [exact Hr|]. exists (negb b).
    apply (bnot_exact dbg x r Hwx Hr). now exists b.
  - destruct IHf as (x & Hx & a & Ha); [intros; apply Hv, in_or_app; auto|].
    destruct IHg as (y & Hy & b & Hb); [intros; apply Hv, in_or_app; auto|].
    rewrite Hx; cbn; rewrite Hy; cbn. eexists. split; [reflexivity|]. exists (a && b).
    apply band_exact; try (eapply form_set_wf; eassumption). exists a, b. auto.
  - destruct IHf as (x & Hx & a & Ha); [intros; apply Hv, in_or_app; auto|].
    destruct IHg as (y & Hy & b & Hb); [intros; apply Hv, in_or_app; auto|].
    rewrite Hx; cbn; rewrite Hy; cbn. eexists. split; [reflexivity|]. exists (a || b).
    apply bor_exact; try (eapply form_set_wf; eassumption). exists a, b. auto.
  - destruct IHf as (x & Hx & a & Ha); [intros; apply Hv, in_or_app; auto|].
    destruct IHg as (y & Hy & b & Hb); [intros; apply Hv, in_or_app; auto|].
    rewrite Hx; cbn; rewrite Hy; cbn. eexists. split; [reflexivity|]. exists (xorb a b).
    apply bxor_exact; try (eapply form_set_wf; eassumption). exists a, b. auto.
Qed.

(** * Algebraic laws of the connectives (including empty sets) *)
Lemma logic_laws x y z : wf_set x -> wf_set y -> wf_set z ->
  band x y = band y x /\ bor x y = bor y x /\ bxor x y = bxor y x
  /\ band x (band y z) = band (band x y) z /\ bor x (bor y z) = bor (bor x y) z /\ bxor x (bxor y z) = bxor (bxor x y) z
  /\ band x x = x /\ bor x x = x
  /\ band x (bor y z) = bor (band x y) (band x z) /\ bor x (band y z) = band (bor x y) (bor x z)
  /\ (nx <- bnot false x ;; bnot false nx) = Ret x
  /\ bnot false (band x y) = (nx <- bnot false x ;; ny <- bnot false y ;; Ret (bor nx ny))
  /\ bnot false (bor x y) = (nx <- bnot false x ;; ny <- bnot false y ;; Ret (band nx ny)).
Proof.
  intros Hx Hy Hz.
  destruct (bset_cases x Hx) as [ -> |[ -> |[ -> | -> ]]], (bset_cases y Hy) as [ -> |[ -> |[ -> | -> ]]], (bset_cases z Hz) as [ -> |[ -> |[ -> | -> ]]];
    vm_compute; repeat split.
Qed.

(** * Sign sets *)
Lemma sset_neg_exact x : wf_set x -> forall s, member (sset_neg x) s <-> ext1 sign_neg (member x) s.
Proof.
  intros Hx s. unfold ext1. rewrite smember_iff.
  assert (H : (exists a, member x a /\ sign_neg a = s) <->
    (scontains x negative_sign && sign_eqb (sign_neg negative_sign) s
     || scontains x zero_sign && sign_eqb (sign_neg zero_sign) s
     || scontains x positive_sign && sign_eqb (sign_neg positive_sign) s) = true).
  { rewrite !orb_true_iff, !andb_true_iff. pose proof (proj1 sign_enum_ok) as He. cbn in He. rewrite !He. rewrite <- !smember_iff. split.
    - intros (a & Ha & <-). destruct a; tauto.
    - intros [[H|H]|H]; eexists; exact H. }
  rewrite H. destruct (sset_cases x Hx) as (n & -> & [ -> |[ -> |[ -> |[ -> |[ -> |[ -> |[ -> | -> ]]]]]]]); destruct s; vm_compute; tauto.
Qed.

Lemma sset_mul_exact x y : wf_set x -> wf_set y -> (exists s, member x s) -> (exists s, member y s) ->
  forall s, member (sset_mul x y) s <-> ext2 sign_mul (member x) (member y) s.
Proof.
  intros Hx Hy (a0 & Ha0) (b0 & Hb0) s.
  assert (Hm : member (sset_mul x y) s <->
     (s = negative_sign /\ (member x positive_sign /\ member y negative_sign \/ member x negative_sign /\ member y positive_sign))
     \/ (s = positive_sign /\ (member x positive_sign /\ member y positive_sign \/ member x negative_sign /\ member y negative_sign))
     \/ (s = zero_sign /\ (member x zero_sign \/ member y zero_sign))).
  { rewrite !smember_iff. unfold sset_mul.
    destruct (scontains x positive_sign), (scontains x zero_sign), (scontains x negative_sign),
      (scontains y positive_sign), (scontains y zero_sign), (scontains y negative_sign), s; vm_compute; intuition discriminate. }
  rewrite Hm. unfold ext2. split.
  - intros [( -> & [(H1 & H2)|(H1 & H2)])|[( -> & [(H1 & H2)|(H1 & H2)])|( -> & [H1|H1])]];
      [eexists _, _; repeat split; [exact H1|exact H2|reflexivity] .. | |].
    + exists zero_sign, b0. repeat split; [exact H1|exact Hb0].
    + exists a0, zero_sign. repeat split; [exact Ha0|exact H1|]. now destruct a0.
  - intros (a & b & Ha & Hb & <-). destruct a, b; cbn; tauto.
Qed.

Lemma sset_mul_scalar x s : sset_mul_sv x s = sset_mul x (sset_of s) /\ sset_mul_vs s x = sset_mul x (sset_of s).
Proof. split; reflexivity. Qed.
Lemma sset_mul_comm x y : sset_mul x y = sset_mul y x.
Proof.
  unfold sset_mul. destruct (scontains x positive_sign), (scontains x zero_sign), (scontains x negative_sign),
      (scontains y positive_sign), (scontains y zero_sign), (scontains y negative_sign); reflexivity.
Qed.
Lemma sset_mul_wf x y : wf_set (sset_mul x y).
Proof.
  unfold sset_mul. destruct (scontains x positive_sign), (scontains x zero_sign), (scontains x negative_sign),
      (scontains y positive_sign), (scontains y zero_sign), (scontains y negative_sign); cbn -[sassign]; repeat apply sassign_wf; apply wf_empty.
Qed.
(** Release-mode product with an empty set: {0} * {} is {0}, not {}. *)
Lemma sset_mul_empty_zero : member (sset_mul (sset_of zero_sign) set_empty) zero_sign.
Proof. apply smember_iff. reflexivity. Qed.

(** * Bundled statements *)
Lemma ext2_eq_r {A B C} (f : A -> B -> C) (P : A -> Prop) (Q : B -> Prop) b t :
  (forall w, Q w <-> w = b) -> ext2 f P Q t <-> ext2 f P (eq b) t.
Proof.
  intros HQ. unfold ext2. split; intros (x & y & Hx & Hy & H); exists x, y; repeat split; auto.
  - symmetry. now apply HQ.
  - apply HQ. congruence.
Qed.
Lemma ext2_eq_l {A B C} (f : A -> B -> C) (P : A -> Prop) (Q : B -> Prop) a t :
  (forall w, P w <-> w = a) -> ext2 f P Q t <-> ext2 f (eq a) Q t.
Proof.
  intros HQ. unfold ext2. split; intros (x & y & Hx & Hy & H); exists x, y; repeat split; auto.
  - symmetry. now apply HQ.
  - apply HQ. congruence.
Qed.

Lemma mixed_connectives (x : bset) (b : bool) : wf_set x -> forall t : bool,
  (member (band_sb x b) t <-> ext2 andb (member x) (eq b) t)
  /\ (member (band_bs b x) t <-> ext2 andb (eq b) (member x) t)
  /\ (member (bor_sb x b) t <-> ext2 orb (member x) (eq b) t)
  /\ (member (bor_bs b x) t <-> ext2 orb (eq b) (member x) t)
  /\ (member (bxor_sb x b) t <-> ext2 xorb (member x) (eq b) t)
  /\ (member (bxor_bs b x) t <-> ext2 xorb (eq b) (member x) t).
Proof.
  intros Hx t. rewrite band_sb_eq, band_bs_eq, bor_sb_eq, bor_bs_eq, bxor_sb_eq, bxor_bs_eq by exact Hx.
  pose proof (bset_of_wf b) as Hb. pose proof (bset_of_member b) as Hm.
  rewrite !band_exact, !bor_exact, !bxor_exact by assumption.
  rewrite !(ext2_eq_r _ (member x) (member (bset_of b)) b t Hm).
  rewrite !(ext2_eq_l _ (member (bset_of b)) (member x) b t Hm). tauto.
Qed.

Lemma bset_both_wf : wf_set bset_both.
Proof. repeat apply bassign_wf; apply wf_empty. Qed.

Lemma weak_orderings_but_one (x y : bset) : wf_set x -> wf_set y ->
  ~ (same_members x bset_both /\ same_members y (bset_of true)) -> forall t : bool,
  (member (bgeq x y) t <-> ext2 (fun a b => bool_le b a) (member x) (member y) t)
  /\ (member (bleq y x) t <-> ext2 bool_le (member y) (member x) t).
Proof.
  intros Hx Hy Hn t.
  assert (Hn' : ~ (x = bset_both /\ y = bset_of true)).
  { intros [ -> -> ]. apply Hn. split; intros v; tauto. }
  pose proof (bgeq_exact_but_one x y Hx Hy Hn' t) as H. split; [exact H|].
  rewrite bleq_bgeq. rewrite H. unfold ext2. split; intros (a & b & Ha & Hb & Ht); exists b, a; auto.
Qed.

Lemma weak_orderings_refuted : exists x y : bset, wf_set x /\ wf_set y /\
  ext2 (fun a b => bool_le b a) (member x) (member y) false /\ ~ member (bgeq x y) false /\ ~ member (bleq y x) false.
Proof.
  exists bset_both, (bset_of true). destruct bgeq_wrong_entry as (_ & H2 & H3).
  repeat split; auto using bset_both_wf, bset_of_wf.
Qed.
Lemma geq_not_negated_lt : exists x y : bset, wf_set x /\ wf_set y /\ bnot false (blt x y) <> Ret (bgeq x y).
Proof. exists bset_both, (bset_of true). repeat split; auto using bset_both_wf, bset_of_wf. vm_compute. discriminate. Qed.

Lemma mixed_orderings (x : bset) (b : bool) : wf_set x ->
  bgt_sb x b = bgt x (bset_of b) /\ bgt_bs b x = bgt (bset_of b) x
  /\ blt_sb x b = blt x (bset_of b) /\ blt_bs b x = blt (bset_of b) x
  /\ bgeq_sb x b = bgeq x (bset_of b) /\ bgeq_bs b x = bgeq (bset_of b) x
  /\ bleq_sb x b = bleq x (bset_of b) /\ bleq_bs b x = bleq (bset_of b) x.
Proof.
  intros H. repeat split; auto using bgt_sb_eq, bgt_bs_eq, blt_sb_eq, blt_bs_eq, bgeq_sb_eq, bgeq_bs_eq, bleq_sb_eq, bleq_bs_eq.
Qed.

Lemma projection_trichotomy (c : bset) : wf_set c -> (exists t, member c t) ->
  (always c = true /\ never c = false /\ contingent c = false)
  \/ (always c = false /\ never c = true /\ contingent c = false)
  \/ (always c = false /\ never c = false /\ contingent c = true).
Proof.
  intros H (t & Ht). apply bmember_iff in Ht.
  destruct (bset_cases c H) as [ -> |[ -> |[ -> | ->]]], t; vm_compute in Ht |- *; try discriminate; tauto.
Qed.
Lemma projection_negation dbg (c n : bset) : wf_set c -> bnot dbg c = Ret n ->
  possibly n = possibly_not c /\ possibly_not n = possibly c /\ always n = never c /\ never n = always c
  /\ contingent n = contingent c /\ vacuous n = vacuous c.
Proof.
  intros H. destruct (bset_cases c H) as [ -> |[ -> |[ -> | ->]]], dbg; cbn; intros Hn; try discriminate; injection Hn as <-; repeat split.
Qed.
Lemma projection_bool (b : bool) :
  possibly_b b = possibly (bset_of b) /\ possibly_not_b b = possibly_not (bset_of b) /\ always_b b = always (bset_of b)
  /\ never_b b = never (bset_of b) /\ contingent_b b = contingent (bset_of b) /\ vacuous_b b = vacuous (bset_of b).
Proof. destruct b; repeat split. Qed.

Lemma set_history_contains (E : enum_type) : enum_ok E -> forall dbg (ops : list (set_op E)),
  Forall set_op_wf ops -> Forall (set_op_legal dbg) ops ->
  exists s, set_run dbg set_empty ops = Ret s /\
    (forall v, In v (ev_values E) -> exists b, set_contains s v = Ret b /\ (b = true <-> given_since_reset ops v)).
Proof.
  intros HE dbg ops Hw Hl. destruct (set_history HE dbg ops Hw Hl) as (s & Hr & _ & Hm).
  exists s. split; [exact Hr|]. intros v Hv. destruct (contains_spec HE s v Hv) as (b & Hb & Hb').
  exists b. split; [exact Hb|]. now rewrite Hb', Hm.
Qed.

Lemma bits_roundtrip_64 (E : enum_type) (s : vset E) : wf_set s -> (num_values E <= 64)%nat ->
  exists b, to_bits s = Ret b /\ @from_bits E b = s.
Proof.
  intros Hs Hn. apply bits_roundtrip; [exact Hs|].
  apply N.lt_le_trans with (2 ^ N.of_nat (num_values E))%N; [now apply wf_lt|].
  apply N.pow_le_mono_r; lia.
Qed.
Lemma to_bits_from_bits_small (E : enum_type) : (num_values E <= 64)%nat -> forall b : N,
  (b < 2 ^ N.of_nat (num_values E))%N -> to_bits (@from_bits E b) = Ret b.
Proof.
  intros Hn b. now apply to_bits_from_bits.
Qed.

Lemma only_member_unique {E : enum_type} (s : vset E) v w : only_member s v -> only_member s w -> v = w.
Proof. intros [H1 H2] [H3 H4]. auto. Qed.
Lemma set_value_iff (E : enum_type) : enum_ok E -> forall dbg (s : vset E), wf_set s -> forall v,
  set_value dbg s = Ret v <-> only_member s v.
Proof. intros HE dbg s Hs v. now apply value_spec. Qed.
Lemma set_value_else (E : enum_type) : enum_ok E -> forall dbg (s : vset E), wf_set s ->
  (~ exists v, only_member s v) -> set_value dbg s = FailFast.
Proof. intros HE dbg s Hs Hn. now apply value_failfast. Qed.
Lemma contains_matches (E : enum_type) : enum_ok E -> forall s t : vset E, wf_set s -> wf_set t ->
  (set_contains_set s t = true <-> forall v, member t v -> member s v)
  /\ (set_matches_set s t = true <-> same_members s t).
Proof. intros HE s t Hs Ht. split; [now apply contains_set_iff|now apply matches_set_iff]. Qed.
Lemma contains_matches_value (E : enum_type) : enum_ok E -> forall (s : vset E) v, wf_set s -> In v (ev_values E) ->
  (exists b, set_contains s v = Ret b /\ (b = true <-> member s v))
  /\ (exists b, set_matches s v = Ret b /\ (b = true <-> only_member s v)).
Proof.
  intros HE s v Hs Hv. split; [now apply contains_spec|].
  unfold set_matches, set_of_value.
  destruct (assign_value_spec HE set_empty v Hv) as (t & -> & Hwt & Hmt). cbn [bind].
  eexists. split; [reflexivity|]. rewrite (matches_set_iff HE s t Hs (Hwt wf_empty)). unfold same_members, only_member.
  pose proof (@member_empty E) as He. split.
  - intros H. split; [apply H, Hmt; auto|]. intros w Hw. apply H, Hmt in Hw. destruct Hw as [Hw|Hw]; [now apply He in Hw|auto].
  - intros [H1 H2] w. rewrite Hmt. split; [auto|]. intros [Hw| -> ]; [now apply He in Hw|exact H1].
Qed.

Lemma sset_mul_mixed (x : sset) (b : sign) : wf_set x -> (exists s, member x s) -> forall s,
  (member (sset_mul_sv x b) s <-> ext2 sign_mul (member x) (eq b) s)
  /\ (member (sset_mul_vs b x) s <-> ext2 sign_mul (eq b) (member x) s).
Proof.
  intros Hx Hn s. pose proof (sset_of_member b) as Hb.
  assert (Hbn : exists s, member (sset_of b) s) by (exists b; now apply Hb).
  destruct (sset_mul_scalar x b) as [H1 H2]. rewrite H1, H2. split.
  - rewrite (sset_mul_exact _ _ Hx (sset_of_wf b) Hn Hbn). now apply ext2_eq_r.
  - rewrite sset_mul_comm. rewrite (sset_mul_exact _ _ (sset_of_wf b) Hx Hbn Hn). now apply ext2_eq_l.
Qed.
Lemma sign_ops_int (a b : sign) :
  int_of_sign (sign_neg a) = (- int_of_sign a)%Z /\ int_of_sign (sign_mul a b) = (int_of_sign a * int_of_sign b)%Z.
Proof. destruct a, b; split; reflexivity. Qed.

Lemma set_print_spec (E : enum_type) : enum_ok E -> forall s : vset E, wf_set s -> exists l : list E,
  set_print s = TOpen :: (separated l ++ [TClose])%list /\ NoDup l /\ (forall v, In v l <-> member s v)
  /\ exists flags : list bool, length flags = length (ev_values E) /\ l = map snd (filter fst (combine flags (ev_values E))).
Proof.
  intros HE s Hs. exists (listed_members s 0 (ev_values E)). split.
  { unfold set_print. now rewrite print_loop_spec. }
  assert (Hgen : forall l i, exists flags : list bool, length flags = length l /\ listed_members s i l = map snd (filter fst (combine flags l))).
  { induction l as [|v l IH]; intros i; [exists []; auto|].
    destruct (IH (S i)) as (fl & Hl & He). exists (N.testbit (state s) (N.of_nat i) :: fl). cbn [length]. split; [now f_equal|].
    unfold listed_members in *. cbn [length seq combine filter fst].
    destruct (N.testbit (state s) (N.of_nat i)); cbn [map snd]; now rewrite He. }
  assert (Hin : forall l i v, In v (listed_members s i l) <-> exists k, nth_error l k = Some v /\ N.testbit (state s) (N.of_nat (i + k)) = true).
  { induction l as [|w l IH]; intros i v.
    - cbn. split; [tauto|]. intros ([|k] & H & _); discriminate.
    - unfold listed_members. cbn [length seq combine filter fst].
      assert (Hc : (exists k, nth_error (w :: l) k = Some v /\ N.testbit (state s) (N.of_nat (i + k)) = true)
        <-> (w = v /\ N.testbit (state s) (N.of_nat i) = true) \/ exists k, nth_error l k = Some v /\ N.testbit (state s) (N.of_nat (S i + k)) = true).
      { split.
        - intros ([|k] & H & Hb); cbn in H.
          + left. injection H as ->. now rewrite Nat.add_0_r in Hb.
          + right. exists k. replace (S i + k)%nat with (i + S k)%nat by lia. auto.
        - intros [( -> & Hb)|(k & H & Hb)].
          + exists O. rewrite Nat.add_0_r. auto.
          + exists (S k). replace (i + S k)%nat with (S i + k)%nat by lia. auto. }
      rewrite Hc, <- IH. destruct (N.testbit (state s) (N.of_nat i)) eqn:Hb; cbn [map snd In]; fold (listed_members s (S i) l); intuition (discriminate || auto). }
  split; [|split; [|apply Hgen]].
  - destruct (Hgen (ev_values E) O) as (fl & Hl & ->). destruct HE as [_ Hnd]. clear Hgen Hin.
    revert Hl Hnd. generalize (ev_values E). intros l. revert fl. induction l as [|v l IH]; intros fl Hl Hnd; [destruct fl; constructor|].
    destruct fl as [|b fl]; [discriminate|]. cbn in Hl. injection Hl as Hl. inversion Hnd; subst. cbn.
    destruct b; cbn; [constructor|]; auto. intros Hv. apply in_map_iff in Hv as ((b' & v') & Hv1 & Hv2). cbn in Hv1. subst v'.
    apply filter_In in Hv2 as [Hv2 _]. apply in_combine_r in Hv2. auto.
  - intros v. rewrite Hin. unfold member. cbn. reflexivity.
Qed.
