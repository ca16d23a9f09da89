(** Proofs about the model of [set<T>], [set<bool>] and [set<sign>]. *)
From Coq Require Import List NArith ZArith Bool Lia Arith.
From Verif Require Import Outcome SetModel Spec.
Import ListNotations.

(** * Searching and bits *)

Section Generic.
  Context {E : enum_type}.
  Implicit Types (s t : vset E) (v : E).

  Lemma find_from_ret (HE : enum_ok E) l v k i :
    find_value_index_from k l v = Ret i ->
    exists j, i = (k + j)%nat /\ nth_error l j = Some v.
  Proof.
    revert k; induction l as [|w l IH]; cbn; intros k H; [discriminate|].
    destruct (ev_eqb E w v) eqn:Hw.
    - injection H as <-. exists 0%nat. split; [lia|]. apply (proj1 HE) in Hw. now subst.
    - destruct (IH _ H) as (j & -> & Hj). exists (S j). split; [lia|exact Hj].
  Qed.

  Lemma find_from_in (HE : enum_ok E) l v k :
    In v l -> exists i, find_value_index_from k l v = Ret i.
  Proof.
    revert k; induction l as [|w l IH]; cbn; intros k H; [tauto|].
    destruct (ev_eqb E w v) eqn:Hw; [eauto|].
    destruct H as [ -> |H]; [|eauto].
    assert (ev_eqb E v v = true) by now apply (proj1 HE). congruence.
  Qed.

  Lemma find_from_notin (HE : enum_ok E) l v k :
    ~ In v l -> find_value_index_from k l v = FailFast.
  Proof.
    revert k; induction l as [|w l IH]; cbn; intros k H; [reflexivity|].
    destruct (ev_eqb E w v) eqn:Hw.
    - apply (proj1 HE) in Hw. tauto.
    - apply IH. tauto.
  Qed.

  Lemma find_ret_iff (HE : enum_ok E) v i :
    find_value_index v = Ret i <-> nth_error (ev_values E) i = Some v.
  Proof.
    unfold find_value_index. split; intros H.
    - destruct (find_from_ret HE _ _ _ _ H) as (j & -> & Hj). exact Hj.
    - destruct (find_from_in HE (ev_values E) v 0) as (j & Hj).
      { eapply nth_error_In; exact H. }
      rewrite Hj. destruct (find_from_ret HE _ _ _ _ Hj) as (k & -> & Hk).
      f_equal. cbn. eapply (proj1 (NoDup_nth_error _)); [exact (proj2 HE)| |congruence].
      apply nth_error_Some. congruence.
  Qed.

  Lemma find_fail_iff (HE : enum_ok E) v :
    find_value_index v = FailFast <-> ~ In v (ev_values E).
  Proof.
    split; intros H.
    - intros Hin. destruct (find_from_in HE _ _ 0%nat Hin) as (i & Hi).
      unfold find_value_index in H. congruence.
    - now apply find_from_notin.
  Qed.

  Lemma find_cases (HE : enum_ok E) v :
    (exists i, find_value_index v = Ret i /\ nth_error (ev_values E) i = Some v)
    \/ (find_value_index v = FailFast /\ ~ In v (ev_values E)).
  Proof.
    destruct (find_value_index v) as [i| | | |] eqn:H.
    - left. exists i. split; [reflexivity|]. now apply find_ret_iff.
    - right. split; [reflexivity|]. now apply find_fail_iff.
    - exfalso. unfold find_value_index in H. revert H. generalize 0%nat.
      induction (ev_values E) as [|w l IH]; cbn; intros k H; [discriminate|].
      destruct (ev_eqb E w v); [discriminate|eauto].
    - exfalso. unfold find_value_index in H. revert H. generalize 0%nat.
      induction (ev_values E) as [|w l IH]; cbn; intros k H; [discriminate|].
      destruct (ev_eqb E w v); [discriminate|eauto].
    - exfalso. unfold find_value_index in H. revert H. generalize 0%nat.
      induction (ev_values E) as [|w l IH]; cbn; intros k H; [discriminate|].
      destruct (ev_eqb E w v); [discriminate|eauto].
  Qed.

  Lemma nth_inj (HE : enum_ok E) i j v :
    nth_error (ev_values E) i = Some v -> nth_error (ev_values E) j = Some v -> i = j.
  Proof.
    intros Hi Hj. eapply (proj1 (NoDup_nth_error _)); [exact (proj2 HE)| |congruence].
    apply nth_error_Some. congruence.
  Qed.

  Lemma member_in s v : member s v -> In v (ev_values E).
  Proof. intros (i & Hi & _). eapply nth_error_In; exact Hi. Qed.

  Lemma member_bit (HE : enum_ok E) s v i :
    nth_error (ev_values E) i = Some v ->
    member s v <-> N.testbit (state s) (N.of_nat i) = true.
  Proof.
    intros Hi. split.
    - intros (j & Hj & Hb). now rewrite (nth_inj HE _ _ _ Hi Hj).
    - intros Hb. now exists i.
  Qed.

  Lemma member_empty v : ~ member (@set_empty E) v.
  Proof. intros (i & _ & Hb). cbn in Hb. now destruct (N.of_nat i). Qed.

  Lemma contains_spec (HE : enum_ok E) s v :
    In v (ev_values E) ->
    exists b, set_contains s v = Ret b /\ (b = true <-> member s v).
  Proof.
    intros Hin. unfold set_contains.
    destruct (find_cases HE v) as [(i & -> & Hi)|(_ & Hn)]; [|tauto].
    cbn. eexists. split; [reflexivity|]. now rewrite (member_bit HE _ _ _ Hi).
  Qed.

  Lemma contains_unlisted (HE : enum_ok E) s v :
    ~ In v (ev_values E) -> set_contains s v = FailFast.
  Proof. intros Hn. unfold set_contains. now rewrite (proj2 (find_fail_iff HE v) Hn). Qed.

  Lemma assign_value_spec (HE : enum_ok E) s v :
    In v (ev_values E) ->
    exists s', set_assign_value s v = Ret s' /\ (wf_set s -> wf_set s')
      /\ forall w, member s' w <-> member s w \/ w = v.
  Proof.
    intros Hin. unfold set_assign_value.
    destruct (find_cases HE v) as [(i & -> & Hi)|(_ & Hn)]; [|tauto].
    cbn. eexists. split; [reflexivity|]. split.
    - intros Hwf j Hj. cbn. rewrite N.setbit_eqb, (Hwf j Hj).
      replace (N.of_nat i =? N.of_nat j)%N with false; [reflexivity|].
      symmetry. apply N.eqb_neq. intros He. apply Nnat.Nat2N.inj in He. subst j.
      assert (i < num_values E)%nat by (unfold num_values; apply nth_error_Some; congruence). lia.
    - intros w. split.
      + intros (j & Hj & Hb). cbn in Hb. rewrite N.setbit_eqb in Hb.
        apply orb_true_iff in Hb as [Hb|Hb].
        * apply N.eqb_eq, Nnat.Nat2N.inj in Hb. subst j. right. congruence.
        * left. now exists j.
      + intros [(j & Hj & Hb)| ->].
        * exists j. split; [exact Hj|]. cbn. now rewrite N.setbit_eqb, Hb, orb_true_r.
        * exists i. split; [exact Hi|]. cbn. now rewrite N.setbit_eqb, N.eqb_refl.
  Qed.

  Lemma assign_value_unlisted (HE : enum_ok E) s v :
    ~ In v (ev_values E) -> set_assign_value s v = FailFast.
  Proof. intros Hn. unfold set_assign_value. now rewrite (proj2 (find_fail_iff HE v) Hn). Qed.

  Lemma wf_empty : wf_set (@set_empty E).
  Proof. intros i _. cbn. now destruct (N.of_nat i). Qed.

  Lemma member_lor s t v :
    member (mkset (N.lor (state s) (state t))) v <-> member s v \/ member t v.
  Proof.
    unfold member; cbn. split.
    - intros (i & Hi & Hb). rewrite N.lor_spec in Hb. apply orb_true_iff in Hb as [Hb|Hb]; [left|right]; now exists i.
    - intros [(i & Hi & Hb)|(i & Hi & Hb)]; exists i; (split; [exact Hi|]); rewrite N.lor_spec, Hb; [reflexivity|apply orb_true_r].
  Qed.

  Lemma wf_lor s t : wf_set s -> wf_set t -> wf_set (@mkset E (N.lor (state s) (state t))).
  Proof. intros Hs Ht i Hi. cbn. now rewrite N.lor_spec, (Hs i Hi), (Ht i Hi). Qed.

  Lemma wf_from_bits b : wf_set (@from_bits E b).
  Proof.
    intros i Hi. unfold from_bits. cbn [state]. rewrite N.land_spec, N.ones_spec_high, andb_false_r; [reflexivity|].
    lia.
  Qed.

  (** A well-formed state without set bits is zero; hence [assigned]. *)
  Lemma assigned_iff s : wf_set s -> set_assigned s = true <-> exists v, member s v.
  Proof.
    intros Hwf. unfold set_assigned, any. rewrite negb_true_iff. split.
    - intros H. apply N.eqb_neq in H.
      assert (Hb : N.testbit (state s) (N.log2 (state s)) = true) by (apply N.bit_log2; exact H).
      set (i := N.to_nat (N.log2 (state s))).
      assert (Hi : N.of_nat i = N.log2 (state s)) by apply Nnat.N2Nat.id.
      rewrite <- Hi in Hb.
      destruct (lt_dec i (num_values E)) as [Hlt|Hge].
      + destruct (nth_error (ev_values E) i) as [v|] eqn:Hv.
        * exists v, i. split; assumption.
        * apply nth_error_None in Hv. unfold num_values in Hlt. lia.
      + rewrite (Hwf i) in Hb by lia. discriminate.
    - intros (v & i & _ & Hb). apply N.eqb_neq. intros H0. rewrite H0 in Hb. now destruct (N.of_nat i).
  Qed.

  Lemma empty_iff s : wf_set s -> set_assigned s = false <-> forall v, ~ member s v.
  Proof.
    intros Hwf. rewrite <- not_true_iff_false, (assigned_iff s Hwf). firstorder.
  Qed.

  Lemma state_ext (HE : enum_ok E) s t : wf_set s -> wf_set t -> same_members s t -> s = t.
  Proof.
    intros Hs Ht H. destruct s as [a], t as [b]. f_equal. apply N.bits_inj. intros n.
    rewrite <- (Nnat.N2Nat.id n). set (i := N.to_nat n).
    destruct (nth_error (ev_values E) i) as [v|] eqn:Hv.
    - specialize (H v). rewrite (member_bit HE _ _ _ Hv), (member_bit HE _ _ _ Hv) in H. cbn in H.
      destruct (N.testbit a (N.of_nat i)), (N.testbit b (N.of_nat i)); intuition congruence.
    - apply nth_error_None in Hv.
      now rewrite (Hs i Hv : N.testbit a _ = false), (Ht i Hv : N.testbit b _ = false).
  Qed.

  (** * Subset and equality queries *)
  Lemma contains_set_iff (HE : enum_ok E) s t :
    wf_set s -> wf_set t ->
    set_contains_set s t = true <-> (forall v, member t v -> member s v).
  Proof.
    intros Hs Ht. unfold set_contains_set. rewrite N.eqb_eq. split.
    - intros H v (i & Hi & Hb). exists i. split; [exact Hi|].
      rewrite <- H, N.land_spec in Hb. now apply andb_true_iff in Hb.
    - intros H. apply N.bits_inj. intros n. rewrite N.land_spec.
      destruct (N.testbit (state t) n) eqn:Hb; [|apply andb_false_r].
      rewrite andb_true_r. rewrite <- (Nnat.N2Nat.id n) in Hb |- *. set (i := N.to_nat n) in *.
      destruct (nth_error (ev_values E) i) as [v|] eqn:Hv.
      + apply (member_bit HE s v i Hv), H. now exists i.
      + apply nth_error_None in Hv. rewrite (Ht i Hv) in Hb. discriminate.
  Qed.

  Lemma matches_set_iff (HE : enum_ok E) s t :
    wf_set s -> wf_set t -> set_matches_set s t = true <-> same_members s t.
  Proof.
    intros Hs Ht. unfold set_matches_set. rewrite N.eqb_eq. split.
    - intros H v. unfold member. now rewrite H.
    - intros H. now rewrite (state_ext HE s t Hs Ht H).
  Qed.

  Lemma bits_roundtrip s : wf_set s -> (state s < 2 ^ 64)%N ->
    exists b, to_bits s = Ret b /\ @from_bits E b = s.
  Proof.
    intros Hwf Hlt. exists (state s). unfold to_bits. rewrite (proj2 (N.ltb_lt _ _) Hlt). split; [reflexivity|].
    destruct s as [a]. unfold from_bits. cbn [state]. f_equal. apply N.bits_inj. intros n. rewrite N.land_spec.
    destruct (N.lt_ge_cases n (N.of_nat (num_values E))) as [H|H].
    - now rewrite N.ones_spec_low, andb_true_r.
    - rewrite N.ones_spec_high, andb_false_r by exact H.
      rewrite <- (Nnat.N2Nat.id n). symmetry. apply Hwf. lia.
  Qed.

  Lemma wf_lt s : wf_set s -> (state s < 2 ^ N.of_nat (num_values E))%N.
  Proof.
    intros Hwf. destruct (N.eq_dec (state s) 0) as [H0|H0].
    { rewrite H0. apply N.neq_0_lt_0, N.pow_nonzero. discriminate. }
    apply N.log2_lt_pow2; [lia|].
    destruct (N.lt_ge_cases (N.log2 (state s)) (N.of_nat (num_values E))) as [H|H]; [exact H|].
    pose proof (N.bit_log2 (state s) H0) as Hb.
    rewrite <- (Nnat.N2Nat.id (N.log2 (state s))) in Hb. rewrite Hwf in Hb by lia. discriminate.
  Qed.

  Lemma to_bits_from_bits (Hn : (num_values E <= 64)%nat) b :
    (b < 2 ^ N.of_nat (num_values E))%N -> to_bits (@from_bits E b) = Ret b.
  Proof.
    intros Hb.
    assert (Hs : state (@from_bits E b) = b).
    { unfold from_bits. cbn [state]. rewrite N.land_ones. now apply N.mod_small. }
    unfold to_bits. rewrite Hs.
    replace (b <? 2 ^ 64)%N with true; [reflexivity|]. symmetry. apply N.ltb_lt.
    eapply N.lt_le_trans; [exact Hb|]. apply N.pow_le_mono_r; [discriminate|lia].
  Qed.

  (** * value() *)
  Lemma testbit_shiftr1 a i : N.testbit (N.shiftr a 1) (N.of_nat i) = N.testbit a (N.of_nat (S i)).
  Proof. rewrite N.shiftr_spec by apply N.le_0_l. f_equal. lia. Qed.

  Lemma value_loop_spec l a v :
    NoDup l ->
    (forall i, (length l <= i)%nat -> N.testbit a (N.of_nat i) = false) ->
    value_loop a l = Ret v <->
    (exists i, nth_error l i = Some v /\ N.testbit a (N.of_nat i) = true
               /\ forall j, N.testbit a (N.of_nat j) = true -> j = i).
  Proof.
    revert a; induction l as [|w l IH]; intros a Hnd Hwf.
    - cbn. split; [discriminate|]. intros (i & Hi & _). now destruct i.
    - cbn [value_loop]. inversion Hnd as [|? ? Hw Hl]; subst.
      assert (Hwf' : forall i, (length l <= i)%nat -> N.testbit (N.shiftr a 1) (N.of_nat i) = false).
      { intros i Hi. rewrite testbit_shiftr1. apply Hwf. cbn. lia. }
      destruct (N.testbit a 0) eqn:H0.
      + unfold any. destruct (N.eqb_spec (N.shiftr a 1) 0) as [Hz|Hnz]; cbn [negb].
        * split.
          -- intros H. injection H as <-. exists 0%nat. repeat split; [exact H0|].
             intros j Hj. destruct j as [|j]; [reflexivity|].
             rewrite <- testbit_shiftr1, Hz in Hj. now destruct (N.of_nat j).
          -- intros (i & Hi & Hb & Hu). rewrite <- (Hu 0%nat H0) in Hi. cbn in Hi. congruence.
        * split; [discriminate|]. intros (i & Hi & Hb & Hu).
          pose proof (N.bit_log2 _ Hnz) as Hl2. rewrite <- (Nnat.N2Nat.id (N.log2 _)), testbit_shiftr1 in Hl2.
          pose proof (Hu _ Hl2). pose proof (Hu 0%nat H0). lia.
      + rewrite (IH _ Hl Hwf'). split.
        * intros (i & Hi & Hb & Hu). exists (S i). rewrite testbit_shiftr1 in Hb. repeat split; [exact Hi|exact Hb|].
          intros [|j] Hj; [cbn in Hj; congruence|]. f_equal. apply Hu. now rewrite testbit_shiftr1.
        * intros ([|i] & Hi & Hb & Hu); [cbn in Hb; congruence|].
          exists i. rewrite testbit_shiftr1. repeat split; [exact Hi|exact Hb|].
          intros j Hj. rewrite testbit_shiftr1 in Hj. apply Hu in Hj. lia.
  Qed.

  Lemma value_loop_outcome l a : (exists v, value_loop a l = Ret v) \/ @value_loop E a l = FailFast.
  Proof.
    revert a; induction l as [|w l IH]; intros a; cbn; [now right|].
    destruct (N.testbit a 0); [destruct (negb (any _)); eauto|apply IH].
  Qed.

  Lemma value_spec (HE : enum_ok E) dbg s v :
    wf_set s -> set_value dbg s = Ret v <-> only_member s v.
  Proof.
    intros Hwf. unfold set_value.
    assert (Hloop : value_loop (state s) (ev_values E) = Ret v <-> only_member s v).
    { rewrite (value_loop_spec _ _ v (proj2 HE) Hwf). split.
      - intros (i & Hi & Hb & Hu). split; [now exists i|].
        intros w (j & Hj & Hbj). rewrite (Hu j Hbj) in Hj. congruence.
      - intros ((i & Hi & Hb) & Hu). exists i. repeat split; [exact Hi|exact Hb|].
        intros j Hj. destruct (nth_error (ev_values E) j) as [w|] eqn:Hw.
        + assert (w = v) by (apply Hu; now exists j). subst w. eapply nth_inj; eassumption.
        + apply nth_error_None in Hw. rewrite (Hwf j Hw) in Hj. discriminate. }
    destruct dbg; [|exact Hloop].
    cbn. unfold expects. destruct (set_assigned s) eqn:Ha; cbn; [exact Hloop|].
    split; [discriminate|]. intros (Hm & _). exfalso. exact (proj1 (empty_iff s Hwf) Ha v Hm).
  Qed.

  Lemma value_failfast (HE : enum_ok E) dbg s :
    wf_set s -> (~ exists v, only_member s v) <-> set_value dbg s = FailFast.
  Proof.
    intros Hwf. split.
    - intros Hn. destruct (set_value dbg s) as [v| | | |] eqn:H; [| reflexivity | exfalso .. ].
      + exfalso. apply Hn. exists v. now apply (value_spec HE dbg).
      + unfold set_value in H. destruct dbg; cbn in H; unfold expects in H;
          destruct (set_assigned s); cbn in H; try discriminate;
          destruct (value_loop_outcome (ev_values E) (state s)) as [(x & Hx)|Hx]; congruence.
      + unfold set_value in H. destruct dbg; cbn in H; unfold expects in H;
          destruct (set_assigned s); cbn in H; try discriminate;
          destruct (value_loop_outcome (ev_values E) (state s)) as [(x & Hx)|Hx]; congruence.
      + unfold set_value in H. destruct dbg; cbn in H; unfold expects in H;
          destruct (set_assigned s); cbn in H; try discriminate;
          destruct (value_loop_outcome (ev_values E) (state s)) as [(x & Hx)|Hx]; congruence.
    - intros H (v & Hv). apply (value_spec HE dbg) in Hv; [congruence|exact Hwf].
  Qed.

  (** * Population count *)
  Definition members (s : vset E) : list nat :=
    filter (fun i => N.testbit (state s) (N.of_nat i)) (seq 0 (num_values E)).

  Lemma members_spec s i : wf_set s -> In i (members s) <-> N.testbit (state s) (N.of_nat i) = true.
  Proof.
    intros Hwf. unfold members. rewrite filter_In, in_seq. split; [tauto|].
    intros H. split; [|exact H]. destruct (lt_dec i (num_values E)); [lia|]. rewrite Hwf in H by lia. discriminate.
  Qed.

  Lemma members_nodup s : NoDup (members s).
  Proof. apply NoDup_filter, seq_NoDup. Qed.

  (** [count > 1] iff two different members; [count = 1] iff exactly one. *)
  Lemma count_gt1 (HE : enum_ok E) s :
    wf_set s -> Nat.ltb 1 (@count E (state s)) = true <-> exists v w, member s v /\ member s w /\ v <> w.
  Proof.
    intros Hwf. change (count (state s)) with (length (members s)). rewrite Nat.ltb_lt. split.
    - pose proof (members_nodup s) as Hnd. pose proof (members_spec s) as Hm.
      destruct (members s) as [|i [|j l]] eqn:Heq; cbn; intros Hlen; try lia.
      assert (Hi : N.testbit (state s) (N.of_nat i) = true) by (apply Hm; [exact Hwf|now left]).
      assert (Hj : N.testbit (state s) (N.of_nat j) = true) by (apply Hm; [exact Hwf|right; now left]).
      assert (Hij : i <> j).
      { intros ->. inversion Hnd; subst. cbn in *. tauto. }
      destruct (nth_error (ev_values E) i) as [v|] eqn:Hv.
      2:{ apply nth_error_None in Hv. rewrite (Hwf i Hv) in Hi. discriminate. }
      destruct (nth_error (ev_values E) j) as [w|] eqn:Hw.
      2:{ apply nth_error_None in Hw. rewrite (Hwf j Hw) in Hj. discriminate. }
      exists v, w. repeat split; [now exists i|now exists j|].
      intros ->. apply Hij. eapply nth_inj; eassumption.
    - intros (v & w & (i & Hi & Hbi) & (j & Hj & Hbj) & Hvw).
      assert (Hij : i <> j) by congruence.
      apply (members_spec s i Hwf) in Hbi. apply (members_spec s j Hwf) in Hbj.
      destruct (members s) as [|a [|b l]]; cbn in *; [tauto| |lia].
      destruct Hbi as [ -> |[]]. destruct Hbj as [ -> |[]]. congruence.
  Qed.

  Lemma count_eq1 (HE : enum_ok E) s :
    wf_set s -> Nat.eqb (@count E (state s)) 1 = true <-> exists v, only_member s v.
  Proof.
    intros Hwf. change (count (state s)) with (length (members s)). rewrite Nat.eqb_eq. split.
    - intros Hlen. destruct (members s) as [|i [|]] eqn:Heq; try discriminate.
      assert (Hi : N.testbit (state s) (N.of_nat i) = true).
      { apply members_spec; [exact Hwf|]. rewrite Heq. now left. }
      destruct (nth_error (ev_values E) i) as [v|] eqn:Hv.
      2:{ apply nth_error_None in Hv. rewrite (Hwf i Hv) in Hi. discriminate. }
      exists v. split; [now exists i|].
      intros w (j & Hj & Hbj). apply (members_spec s j Hwf) in Hbj. rewrite Heq in Hbj.
      destruct Hbj as [ -> |[]]. congruence.
    - intros (v & (i & Hi & Hb) & Hu).
      assert (Hall : forall j, In j (members s) -> j = i).
      { intros j Hj. apply (members_spec s j Hwf) in Hj.
        destruct (nth_error (ev_values E) j) as [w|] eqn:Hw.
        - assert (w = v) by (apply Hu; now exists j). subst. eapply nth_inj; eassumption.
        - apply nth_error_None in Hw. rewrite (Hwf j Hw) in Hj. discriminate. }
      apply (members_spec s i Hwf) in Hb. pose proof (members_nodup s) as Hnd.
      destruct (members s) as [|a [|b l]]; cbn in *; [tauto|reflexivity|].
      assert (a = i) by (apply Hall; now left). assert (b = i) by (apply Hall; right; now left).
      subst. inversion Hnd; subst. cbn in *. tauto.
  Qed.

  Lemma anymatch_iff (HE : enum_ok E) s t :
    wf_set s -> any (N.land (state s) (state t)) = true <-> exists v, member s v /\ member t v.
  Proof.
    intros Hwf. unfold any. rewrite negb_true_iff, N.eqb_neq. split.
    - intros H. pose proof (N.bit_log2 _ H) as Hb. rewrite N.land_spec in Hb.
      rewrite <- (Nnat.N2Nat.id (N.log2 _)) in Hb. apply andb_true_iff in Hb as [Hb1 Hb2].
      set (i := N.to_nat (N.log2 (N.land (state s) (state t)))) in *.
      destruct (nth_error (ev_values E) i) as [v|] eqn:Hv.
      + exists v. split; now exists i.
      + apply nth_error_None in Hv. rewrite (Hwf i Hv) in Hb1. discriminate.
    - intros (v & (i & Hi & Hb) & (j & Hj & Hbj)) H0.
      rewrite <- (nth_inj HE _ _ _ Hi Hj) in Hbj.
      assert (H : N.testbit (N.land (state s) (state t)) (N.of_nat i) = true) by now rewrite N.land_spec, Hb, Hbj.
      rewrite H0 in H. now destruct (N.of_nat i).
  Qed.

  (** [anyPossibleMismatch] for non-empty sets. *)
  Lemma mismatch_iff (HE : enum_ok E) s t :
    wf_set s -> wf_set t -> (exists v, member s v) -> (exists v, member t v) ->
    fst (set_compare_eq s t) = true <-> exists v w, member s v /\ member t w /\ v <> w.
  Proof.
    intros Hs Ht (v0 & Hv0) (w0 & Hw0).
    assert (Hdec : forall a b : E, a = b \/ a <> b).
    { intros a b. destruct (ev_eqb E a b) eqn:Hab.
      - left. now apply (proj1 HE).
      - right. intros He. apply (proj1 HE) in He. congruence. }
    unfold set_compare_eq; cbn [fst].
    rewrite !orb_true_iff, !andb_true_iff, negb_true_iff,
      (count_gt1 HE s Hs), (count_gt1 HE t Ht), (count_eq1 HE s Hs), (count_eq1 HE t Ht),
      <- not_true_iff_false, (anymatch_iff HE s t Hs).
    split.
    - intros [[(v & w & Hv & Hw & Hvw)|(v & w & Hv & Hw & Hvw)]|(((v & Hv & Hvu) & (w & Hw & Hwu)) & Hn)].
      + destruct (Hdec v w0) as [ -> |Hd]; [|exists v, w0; tauto].
        exists w, w0. repeat split; [exact Hw|exact Hw0|congruence].
      + destruct (Hdec v0 v) as [ -> |Hd]; [|exists v0, v; tauto].
        exists v, w. repeat split; assumption.
      + exists v, w. repeat split; [exact Hv|exact Hw|]. intros ->. apply Hn. now exists w.
    - intros (v & w & Hv & Hw & Hvw).
      destruct (Hdec v0 v) as [<-|Hd]; [|left; left; exists v0, v; tauto].
      assert (Hs1 : (exists a b, member s a /\ member s b /\ a <> b) \/ only_member s v0).
      { destruct (Nat.ltb 1 (@count E (state s))) eqn:Hc.
        - left. now apply (count_gt1 HE s Hs).
        - right. split; [exact Hv0|]. intros x Hx. destruct (Hdec x v0) as [He|He]; [exact He|].
          assert (Nat.ltb 1 (@count E (state s)) = true) by (apply (count_gt1 HE s Hs); exists x, v0; tauto). congruence. }
      destruct Hs1 as [Hs1|Hs1]; [tauto|].
      assert (Ht1 : (exists a b, member t a /\ member t b /\ a <> b) \/ only_member t w).
      { destruct (Nat.ltb 1 (@count E (state t))) eqn:Hc.
        - left. now apply (count_gt1 HE t Ht).
        - right. split; [exact Hw|]. intros x Hx. destruct (Hdec x w) as [He|He]; [exact He|].
          assert (Nat.ltb 1 (@count E (state t)) = true) by (apply (count_gt1 HE t Ht); exists x, w; tauto). congruence. }
      destruct Ht1 as [Ht1|Ht1]; [tauto|].
      right. split; [split; [now exists v0|now exists w]|].
      intros (x & Hx & Hy). apply Hs1 in Hx. apply Ht1 in Hy. congruence.
  Qed.

  (** * Operation histories *)
  Lemma assign_set_spec dbg s t :
    wf_set t ->
    (dbg = false \/ exists v, member t v) ->
    exists s', set_assign dbg s t = Ret s' /\ (wf_set s -> wf_set s')
      /\ forall w, member s' w <-> member s w \/ member t w.
  Proof.
    intros Ht Hd. exists (mkset (N.lor (state s) (state t))). split.
    - unfold set_assign. destruct dbg; [|reflexivity].
      destruct Hd as [Hd|Hd]; [discriminate|]. cbn. now rewrite (proj2 (assigned_iff t Ht) Hd).
    - split; [intros Hs; now apply wf_lor|apply member_lor].
  Qed.

  Lemma assign_set_fail s t : wf_set t -> (forall v, ~ member t v) -> set_assign true s t = FailFast.
  Proof. intros Ht Hn. unfold set_assign. cbn. now rewrite (proj2 (empty_iff t Ht) Hn). Qed.
End Generic.

Lemma bool_enum_ok : enum_ok bool_enum.
Proof.
  split.
  - intros a b. cbn. apply Bool.eqb_true_iff.
  - cbn. repeat constructor; cbn; intuition discriminate.
Qed.

Lemma sign_enum_ok : enum_ok sign_enum.
Proof.
  split.
  - intros a b. destruct a, b; cbn; intuition congruence.
  - cbn. repeat constructor; cbn; intuition discriminate.
Qed.

(** The totalised membership tests are the library's [contains]. *)
Lemma bcontains_contains x b : set_contains x b = Ret (bcontains x b).
Proof. now destruct b. Qed.
Lemma bassign_assign x b : set_assign_value x b = Ret (bassign x b).
Proof. now destruct b. Qed.
Lemma scontains_contains x s : set_contains x s = Ret (scontains x s).
Proof. now destruct s. Qed.
Lemma sassign_assign x s : set_assign_value x s = Ret (sassign x s).
Proof. now destruct s. Qed.

Lemma bmember_iff (x : bset) b : member x b <-> bcontains x b = true.
Proof.
  rewrite (member_bit bool_enum_ok x b (if b then 1 else 0)%nat) by now destruct b.
  unfold bcontains. now destruct b.
Qed.
Lemma smember_iff (x : sset) s : member x s <-> scontains x s = true.
Proof.
  rewrite (member_bit sign_enum_ok x s (N.to_nat (sign_index s))) by now destruct s.
  unfold scontains. now rewrite Nnat.N2Nat.id.
Qed.

Lemma bset_cases (x : bset) : wf_set x -> x = mkset 0 \/ x = mkset 1 \/ x = mkset 2 \/ x = mkset 3.
Proof.
  intros H. apply wf_lt in H. destruct x as [a]. cbn in H. cbn.
  assert (a = 0 \/ a = 1 \/ a = 2 \/ a = 3)%N by lia. intuition subst; auto.
Qed.
Lemma sset_cases (x : sset) : wf_set x -> exists n, x = mkset n /\ (n = 0 \/ n = 1 \/ n = 2 \/ n = 3 \/ n = 4 \/ n = 5 \/ n = 6 \/ n = 7)%N.
Proof.
  intros H. apply wf_lt in H. destruct x as [a]. cbn in H. exists a. split; [reflexivity|]. lia.
Qed.

Lemma bassign_member x b t : member (bassign x b) t <-> member x t \/ t = b.
Proof.
  rewrite !bmember_iff. unfold bcontains, bassign. cbn [state]. rewrite N.setbit_eqb, orb_true_iff, N.eqb_eq.
  destruct b, t; intuition congruence.
Qed.
Lemma bassign_wf x b : wf_set x -> wf_set (bassign x b).
Proof.
  intros H i Hi. cbn. rewrite N.setbit_eqb, (H i Hi), orb_false_r. apply N.eqb_neq.
  change (num_values bool_enum) with 2%nat in Hi. destruct b; lia.
Qed.
Lemma sassign_member x b t : member (sassign x b) t <-> member x t \/ t = b.
Proof.
  rewrite !smember_iff. unfold scontains, sassign. cbn [state]. rewrite N.setbit_eqb, orb_true_iff, N.eqb_eq.
  destruct b, t; cbn; intuition congruence.
Qed.
Lemma sassign_wf x b : wf_set x -> wf_set (sassign x b).
Proof.
  intros H i Hi. cbn. rewrite N.setbit_eqb, (H i Hi), orb_false_r. apply N.eqb_neq.
  change (num_values sign_enum) with 3%nat in Hi. destruct b; cbn; lia.
Qed.
Lemma bset_of_member b t : member (bset_of b) t <-> t = b.
Proof. unfold bset_of. rewrite bassign_member. split; [intros [H|H]; [now apply member_empty in H|exact H]|auto]. Qed.
Lemma bset_of_wf b : wf_set (bset_of b).
Proof. apply bassign_wf, wf_empty. Qed.
Lemma sset_of_member b t : member (sset_of b) t <-> t = b.
Proof. unfold sset_of. rewrite sassign_member. split; [intros [H|H]; [now apply member_empty in H|exact H]|auto]. Qed.
Lemma sset_of_wf b : wf_set (sset_of b).
Proof. apply sassign_wf, wf_empty. Qed.

(** [if c1 then assign v1; if c2 then assign v2] as used by all comparison operators. *)
Lemma two_assign_member (c1 c2 : bool) b t :
  let r := @set_empty bool_enum in
  let r := if c1 then bassign r b else r in
  let r := if c2 then bassign r (negb b) else r in
  member r t <-> (t = b /\ c1 = true) \/ (t = negb b /\ c2 = true).
Proof.
  cbn zeta. destruct c1, c2; rewrite ?bassign_member; pose proof (@member_empty bool_enum t); intuition congruence.
Qed.
Lemma two_assign_wf (c1 c2 : bool) b :
  let r := @set_empty bool_enum in
  let r := if c1 then bassign r b else r in
  let r := if c2 then bassign r (negb b) else r in
  wf_set r.
Proof. cbn zeta. destruct c1, c2; repeat apply bassign_wf; apply wf_empty. Qed.

(** * Four-valued logic *)
Definition ext2b (f : bool -> bool -> bool) (x y : bset) (t : bool) : bool :=
  existsb (fun a => existsb (fun b => bcontains x a && bcontains y b && Bool.eqb (f a b) t) [false; true]) [false; true].
Lemma ext2b_iff (f : bool -> bool -> bool) (x y : bset) (t : bool) : ext2 f (member x) (member y) t <-> ext2b f x y t = true.
Proof.
  unfold ext2, ext2b. rewrite existsb_exists. split.
  - intros (a & b & Ha & Hb & He). exists a. split; [destruct a; cbn; auto|].
    rewrite existsb_exists. exists b. split; [destruct b; cbn; auto|].
    apply bmember_iff in Ha, Hb. rewrite Ha, Hb, He. cbn. apply eqb_reflx.
  - intros (a & _ & H). rewrite existsb_exists in H. destruct H as (b & _ & H).
    rewrite !andb_true_iff in H. destruct H as ((Ha & Hb) & He). apply eqb_prop in He.
    exists a, b. now rewrite !bmember_iff.
Qed.
Definition ext1b (f : bool -> bool) (x : bset) (t : bool) : bool :=
  existsb (fun a => bcontains x a && Bool.eqb (f a) t) [false; true].
Lemma ext1b_iff (f : bool -> bool) (x : bset) (t : bool) : ext1 f (member x) t <-> ext1b f x t = true.
Proof.
  unfold ext1, ext1b. rewrite existsb_exists. split.
  - intros (a & Ha & He). exists a. split; [destruct a; cbn; auto|].
    apply bmember_iff in Ha. rewrite Ha, He. cbn. apply eqb_reflx.
  - intros (a & _ & H). rewrite andb_true_iff in H. destruct H as (Ha & He). apply eqb_prop in He.
    exists a. now rewrite bmember_iff.
Qed.

Definition agrees2 (f : bool -> bool -> bool) (op : bset -> bset -> bset) (x y : N) : bool :=
  forallb (fun t => Bool.eqb (bcontains (op (mkset x) (mkset y)) t) (ext2b f (mkset x) (mkset y) t)) [false; true].
Definition all_agree2 f op : bool :=
  forallb (fun x => forallb (fun y => agrees2 f op x y) [0;1;2;3]%N) [0;1;2;3]%N.

Lemma all_agree2_exact f op :
  all_agree2 f op = true ->
  forall x y : bset, wf_set x -> wf_set y ->
  forall t : bool, member (op x y) t <-> ext2 f (member x) (member y) t.
Proof.
  intros H x y Hx Hy t. rewrite bmember_iff, ext2b_iff.
  assert (Ha : exists a, x = mkset a /\ In a [0;1;2;3]%N).
  { destruct (bset_cases x Hx) as [ -> |[ -> |[ -> | ->]]]; eexists; (split; [reflexivity|cbn; auto]). }
  assert (Hb : exists b, y = mkset b /\ In b [0;1;2;3]%N).
  { destruct (bset_cases y Hy) as [ -> |[ -> |[ -> | ->]]]; eexists; (split; [reflexivity|cbn; auto]). }
  destruct Ha as (a & -> & Ha). destruct Hb as (b & -> & Hb).
  unfold all_agree2 in H. rewrite forallb_forall in H. specialize (H a Ha).
  rewrite forallb_forall in H. specialize (H b Hb).
  unfold agrees2 in H. rewrite forallb_forall in H. specialize (H t (ltac:(destruct t; cbn; auto))).
  apply eqb_prop in H. now rewrite H.
Qed.

Lemma lut_wf table sh : wf_set (lut_at table sh).
Proof. apply wf_from_bits. Qed.

Lemma band_exact : forall x y : bset, wf_set x -> wf_set y -> forall t : bool, member (band x y) t <-> ext2 andb (member x) (member y) t.
Proof. apply all_agree2_exact. vm_compute. reflexivity. Qed.
Lemma bor_exact : forall x y : bset, wf_set x -> wf_set y -> forall t : bool, member (bor x y) t <-> ext2 orb (member x) (member y) t.
Proof. apply all_agree2_exact. vm_compute. reflexivity. Qed.
Lemma bxor_exact : forall x y : bset, wf_set x -> wf_set y -> forall t : bool, member (bxor x y) t <-> ext2 xorb (member x) (member y) t.
Proof. apply all_agree2_exact. vm_compute. reflexivity. Qed.
Lemma bgt_exact : forall x y : bset, wf_set x -> wf_set y -> forall t : bool, member (bgt x y) t <-> ext2 (fun a b => bool_lt b a) (member x) (member y) t.
Proof. apply all_agree2_exact. vm_compute. reflexivity. Qed.
Lemma blt_exact : forall x y : bset, wf_set x -> wf_set y -> forall t : bool, member (blt x y) t <-> ext2 bool_lt (member x) (member y) t.
Proof. apply all_agree2_exact. vm_compute. reflexivity. Qed.

Lemma band_sb_eq x b : wf_set x -> band_sb x b = band x (bset_of b).
Proof. intros H. destruct (bset_cases x H) as [ -> |[ -> |[ -> | ->]]], b; reflexivity. Qed.
Lemma band_bs_eq x b : wf_set x -> band_bs b x = band (bset_of b) x.
Proof. intros H. destruct (bset_cases x H) as [ -> |[ -> |[ -> | ->]]], b; reflexivity. Qed.
Lemma bor_sb_eq x b : wf_set x -> bor_sb x b = bor x (bset_of b).
Proof. intros H. destruct (bset_cases x H) as [ -> |[ -> |[ -> | ->]]], b; reflexivity. Qed.
Lemma bor_bs_eq x b : wf_set x -> bor_bs b x = bor (bset_of b) x.
Proof. intros H. destruct (bset_cases x H) as [ -> |[ -> |[ -> | ->]]], b; reflexivity. Qed.
Lemma bxor_sb_eq x b : wf_set x -> bxor_sb x b = bxor x (bset_of b).
Proof. intros H. destruct (bset_cases x H) as [ -> |[ -> |[ -> | ->]]], b; reflexivity. Qed.
Lemma bxor_bs_eq x b : wf_set x -> bxor_bs b x = bxor (bset_of b) x.
Proof. intros H. destruct (bset_cases x H) as [ -> |[ -> |[ -> | ->]]], b; reflexivity. Qed.
Lemma bgt_sb_eq x b : wf_set x -> bgt_sb x b = bgt x (bset_of b).
Proof. intros H. destruct (bset_cases x H) as [ -> |[ -> |[ -> | ->]]], b; reflexivity. Qed.
Lemma bgt_bs_eq x b : wf_set x -> bgt_bs b x = bgt (bset_of b) x.
Proof. intros H. destruct (bset_cases x H) as [ -> |[ -> |[ -> | ->]]], b; reflexivity. Qed.
Lemma blt_sb_eq x b : wf_set x -> blt_sb x b = blt x (bset_of b).
Proof. intros H. destruct (bset_cases x H) as [ -> |[ -> |[ -> | ->]]], b; reflexivity. Qed.
Lemma blt_bs_eq x b : wf_set x -> blt_bs b x = blt (bset_of b) x.
Proof. intros H. destruct (bset_cases x H) as [ -> |[ -> |[ -> | ->]]], b; reflexivity. Qed.
Lemma bgeq_sb_eq x b : wf_set x -> bgeq_sb x b = bgeq x (bset_of b).
Proof. intros H. destruct (bset_cases x H) as [ -> |[ -> |[ -> | ->]]], b; reflexivity. Qed.
Lemma bgeq_bs_eq x b : wf_set x -> bgeq_bs b x = bgeq (bset_of b) x.
Proof. intros H. destruct (bset_cases x H) as [ -> |[ -> |[ -> | ->]]], b; reflexivity. Qed.
Lemma bleq_sb_eq x b : wf_set x -> bleq_sb x b = bleq x (bset_of b).
Proof. intros H. destruct (bset_cases x H) as [ -> |[ -> |[ -> | ->]]], b; reflexivity. Qed.
Lemma bleq_bs_eq x b : wf_set x -> bleq_bs b x = bleq (bset_of b) x.
Proof. intros H. destruct (bset_cases x H) as [ -> |[ -> |[ -> | ->]]], b; reflexivity. Qed.

Lemma bnot_exact dbg x r : wf_set x -> bnot dbg x = Ret r -> forall t : bool, member r t <-> ext1 negb (member x) t.
Proof.
  intros H Hr t. rewrite bmember_iff, ext1b_iff.
  destruct (bset_cases x H) as [ -> |[ -> |[ -> | ->]]], dbg; cbn in Hr; try discriminate; injection Hr as <-; destruct t; vm_compute; tauto.
Qed.
Lemma bnot_release x : wf_set x -> exists r, bnot false x = Ret r.
Proof. intros _. eexists. reflexivity. Qed.
Lemma bnot_debug x : wf_set x -> (exists r, bnot true x = Ret r) <-> exists t, member x t.
Proof.
  intros H. rewrite <- (assigned_iff x H). unfold bnot. cbn. destruct (set_assigned x); cbn; [|split; intros; [destruct H0|]; discriminate].
  split; eauto.
Qed.
Lemma bnot_wf dbg x r : bnot dbg x = Ret r -> wf_set r.
Proof.
  unfold bnot. intros H. destruct (expects_debug dbg (set_assigned x)); cbn in H; try discriminate. injection H as <-. apply lut_wf.
Qed.
Lemma band_wf x y : wf_set (band x y). Proof. apply lut_wf. Qed.
Lemma bor_wf x y : wf_set (bor x y). Proof. apply lut_wf. Qed.
Lemma bxor_wf x y : wf_set (bxor x y). Proof. apply lut_wf. Qed.

(** The table for >= : exact except for one entry. *)
Lemma bgeq_exact_but_one : forall x y : bset, wf_set x -> wf_set y ->
  ~ (x = bset_both /\ y = bset_of true) ->
  forall t : bool, member (bgeq x y) t <-> ext2 (fun a b => bool_le b a) (member x) (member y) t.
Proof.
  intros x y Hx Hy Hn t. rewrite bmember_iff, ext2b_iff.
  destruct (bset_cases x Hx) as [ -> |[ -> |[ -> | ->]]], (bset_cases y Hy) as [ -> |[ -> |[ -> | ->]]];
    try (exfalso; apply Hn; split; reflexivity); destruct t; vm_compute; tauto.
Qed.
Lemma bgeq_wrong_entry :
  member (bgeq bset_both (bset_of true)) true
  /\ ~ member (bgeq bset_both (bset_of true)) false
  /\ ext2 (fun a b => bool_le b a) (member bset_both) (member (bset_of true)) false.
Proof.
  rewrite !bmember_iff, ext2b_iff. vm_compute. intuition discriminate.
Qed.
Lemma bleq_bgeq x y : bleq x y = bgeq y x. Proof. reflexivity. Qed.

Lemma projections (c : bset) : wf_set c ->
  (possibly c = true <-> member c true) /\ (possibly_not c = true <-> member c false)
  /\ (always c = true <-> ~ member c false) /\ (never c = true <-> ~ member c true)
  /\ (contingent c = true <-> member c true /\ member c false)
  /\ (vacuous c = true <-> forall t, ~ member c t).
Proof.
  intros H. unfold possibly, possibly_not, always, never, vacuous.
  rewrite !negb_true_iff, <- !not_true_iff_false, <- !bmember_iff.
  repeat split; try tauto; try (intros; tauto).
  - apply bmember_iff. destruct (bset_cases c H) as [ -> |[ -> |[ -> | ->]]]; vm_compute in H0; try discriminate; reflexivity.
  - apply bmember_iff. destruct (bset_cases c H) as [ -> |[ -> |[ -> | ->]]]; vm_compute in H0; try discriminate; reflexivity.
  - rewrite !bmember_iff. intros [H1 H2]. destruct (bset_cases c H) as [ -> |[ -> |[ -> | ->]]]; vm_compute in *; try discriminate; reflexivity.
  - intros Hn t Ht. apply Hn. apply assigned_iff; [exact H|]. now exists t.
  - intros Hn Ha. apply assigned_iff in Ha; [|exact H]. destruct Ha as (t & Ht). now apply (Hn t).
Qed.
