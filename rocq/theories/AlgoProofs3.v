(** Enumeration and subscripts by an index interval. *)
From Coq Require Import Bool List Arith ZArith Lia.
From Verif Require Import Outcome SetModel Spec SetProofs Num NumLaws IntervalModel IvlSpec IvlProofs ArithProofs ArithProofs4 ArithProofs5 IntNum IntProofs IterModel IterProofs FloatNum
  ValueTypes ConstrainModel AlgoModel AlgoSpec AlgoProofs AlgoProofs2.
Import ListNotations.
Open Scope nat_scope.

Section ForLoop.
  Context {I T : Type} (done : I -> bool) (deref_ : I -> outcome T) (incr : I -> outcome I).
  Lemma for_loop_done fuel it : done it = true -> for_loop done deref_ incr fuel it = Some (Ret []).
  Proof. intros H. destruct fuel; cbn; now rewrite H. Qed.
  Lemma for_loop_step fuel it v it' l : done it = false -> deref_ it = Ret v -> incr it = Ret it' -> for_loop done deref_ incr fuel it' = Some (Ret l) ->
    for_loop done deref_ incr (S fuel) it = Some (Ret (v :: l)).
  Proof. intros H1 H2 H3 H4. cbn. rewrite H1, H2. cbn. rewrite H3. cbn. rewrite H4. reflexivity. Qed.
End ForLoop.
Lemma skipn_cons_nth {A : Type} (l : list A) i v : nth_error l i = Some v -> skipn i l = v :: skipn (S i) l.
Proof. revert l. induction i as [|i IH]; intros [|a l] H; try discriminate H; [injection H as ->; reflexivity|]. cbn in H. apply IH in H. exact H. Qed.

(** ** Intervals *)
Section EnumInterval.
  Context {O : ordty} (rk : O -> Z) (rk_inj : forall a b, rk a = rk b -> a = b)
    (rk_le : forall a b, o_le a b = true <-> (rk a <= rk b)%Z) (rk_lt : forall a b, o_lt a b = true <-> (rk a < rk b)%Z) (rk_eq : forall a b, o_eq a b = true <-> rk a = rk b)
    (rk_succ : forall a b, (rk a < rk b)%Z -> exists y, o_succ a = Ret y /\ rk y = (rk a + 1)%Z).
  Lemma iv_loop u n : forall p, (rk p + Z.of_nat n = rk u)%Z -> exists l,
    (forall fuel, n < fuel -> for_loop (@iv_exhausted O) iv_deref iv_incr fuel (IvIter p u false) = Some (Ret l))
    /\ ascending l /\ forall v, In v l <-> (rk p <= rk v <= rk u)%Z.
  Proof.
    induction n as [|n IH]; intros p Hp.
    - exists [p]. split; [|split].
      + intros fuel Hf. destruct fuel as [|fuel]; [lia|]. apply (for_loop_step _ _ _ fuel _ p (IvIter p u true) []); [reflexivity|reflexivity| |apply for_loop_done; reflexivity].
        unfold iv_incr. cbn. rewrite (proj2 (rk_eq p u)) by lia. reflexivity.
      + intros i j v w L Ei Ej. destruct j as [|j]; [lia|]. destruct j; discriminate Ej.
      + intros v. cbn. split; [intros [<-|[]]; lia|]. intros H. left. apply rk_inj. lia.
    - destruct (rk_succ p u) as (y & Hy & Ry); [lia|]. destruct (IH y) as (l & Hl & Sl & Ml); [lia|]. exists (p :: l). split; [|split].
      + intros fuel Hf. destruct fuel as [|fuel]; [lia|]. apply (for_loop_step _ _ _ fuel _ p (IvIter y u false) l); [reflexivity|reflexivity| |apply (Hl fuel); lia].
        unfold iv_incr. cbn. destruct (o_eq p u) eqn:E; [apply rk_eq in E; lia|]. rewrite Hy. reflexivity.
      + intros [|i] [|j] v w L Ei Ej; [lia| |lia|].
        * cbn in Ei, Ej. injection Ei as <-. apply nth_error_In, Ml in Ej. apply rk_lt. lia.
        * apply (Sl i j v w); auto. lia.
      + intros v. cbn. rewrite Ml. split; [intros [<-|H]; lia|]. intros H. destruct (Z.eq_dec (rk p) (rk v)) as [E|E]; [left; now apply rk_inj|right; lia].
  Qed.
  Lemma enumerate_interval_ok (X : ivl O) : proper X -> assigned X = true -> exists l n,
    (forall fuel, n <= fuel -> enumerate_interval fuel X = Some (Ret l)) /\ ascending l /\ forall v, In v l <-> el X v.
  Proof.
    intros HX HA. apply rk_le in HX. destruct (iv_loop (hi X) (Z.to_nat (rk (hi X) - rk (lo X))) (lo X)) as (l & Hl & Sl & Ml); [lia|].
    exists l, (S (Z.to_nat (rk (hi X) - rk (lo X)))). split; [|split; [exact Sl|]].
    - intros fuel Hf. unfold enumerate_interval. rewrite HA. apply Hl. lia.
    - intros v. unfold el. rewrite Ml, !rk_le. tauto.
  Qed.
End EnumInterval.
Lemma enumerate_discrete O : order_type O -> o_disc O = true -> forall X : ivl O, proper X -> exists l n,
  (forall fuel, n <= fuel -> enumerate_interval fuel X = Some (Ret l)) /\ ascending l /\ forall v, In v l <-> el X v.
Proof.
  intros H D X HX. pose proof (proper_assigned (order_type_laws O H) X HX) as HA. revert D X HX HA.
  destruct H as [N [w Hw|prec emax Hp He]|n]; [|discriminate|]; intros _ X HX HA.
  - apply (enumerate_interval_ok (O := int_ordty w) (@val w)); auto.
    + apply val_inj.
    + intros a b. apply Z.leb_le.
    + intros a b. apply Z.ltb_lt.
    + intros a b. apply Z.eqb_eq.
    + intros a b L. cbn. destruct (proj2 (int_of_def w (val a + 1))) as (y & E); [pose proof (val_range w a); pose proof (val_range w b); lia|]. exists y. split; [exact E|]. now apply int_of_ret.
  - apply (enumerate_interval_ok (O := iter_ordty n) (@idx n)); auto.
    + apply idx_inj.
    + intros a b. apply Z.leb_le.
    + intros a b. apply Z.ltb_lt.
    + intros a b. apply Z.eqb_eq.
    + intros a b L. cbn. destruct (proj2 (@iter_of_def n (idx a + 1))) as (y & E); [pose proof (idx_range a); pose proof (idx_range b); lia|]. exists y. split; [exact E|]. now apply iter_of_ret.
Qed.
Lemma enumerate_unassigned {O : ordty} (X : ivl O) fuel : assigned X = false -> enumerate_interval fuel X = Some FailFast.
Proof. intros H. unfold enumerate_interval. now rewrite H. Qed.
Lemma enumerate_one {T : Type} (v : T) fuel : 1 <= fuel -> enumerate_scalar fuel v = Some (Ret [v]).
Proof. intros H. destruct fuel as [|fuel]; [lia|]. cbn. now destruct fuel. Qed.

(** ** Sets *)
Section EnumSet.
  Context {E : enum_type}.
  Implicit Types s : vset E.
  Notation n := (num_values E).
  Definition bit s (i : nat) : bool := N.testbit (state s) (N.of_nat i).
  (** The values at the positions from [i] on whose bits are set. *)
  Fixpoint pick s (i : nat) (l : list E) : list E :=
    match l with [] => [] | v :: l' => if bit s i then v :: pick s (S i) l' else pick s (S i) l' end.
  Lemma contains_bit s (i : nat) : i < n -> contains_index s (Z.of_nat i) = Ret (bit s i).
  Proof.
    intros H. unfold contains_index. rewrite (proj2 (Z.leb_le _ _)) by lia. rewrite (proj2 (Z.ltb_lt _ _)) by lia. cbn. unfold bit. do 2 f_equal. lia.
  Qed.
  (** The loop stops at the next set bit. *)
  Lemma si_loop_ok s : forall fuel i, i <= n -> n < i + fuel -> exists j, i <= j <= n
    /\ si_loop fuel s (Z.of_nat i - 1) = Ret (SetIter s (Z.of_nat j) (Nat.eqb j n))
    /\ pick s i (skipn i (ev_values E)) = pick s j (skipn j (ev_values E)) /\ (j < n -> bit s j = true).
  Proof.
    induction fuel as [|fuel IH]; intros i Hi Hf; [lia|]. cbn [si_loop]. replace (Z.of_nat i - 1 + 1)%Z with (Z.of_nat i) by lia.
    destruct (Z.eqb_spec (Z.of_nat i) (Z.of_nat n)) as [Ez|Ez].
    - exists i. split; [lia|]. replace (Nat.eqb i n) with true by (symmetry; apply Nat.eqb_eq; lia). split; [reflexivity|]. split; [reflexivity|]. lia.
    - rewrite contains_bit by lia. cbn [bind]. destruct (bit s i) eqn:B.
      + exists i. split; [lia|]. replace (Nat.eqb i n) with false by (symmetry; apply Nat.eqb_neq; lia). auto.
      + destruct (IH (S i)) as (j & Hj & Hl & Hp & Hb); [lia|lia|]. replace (Z.of_nat (S i) - 1)%Z with (Z.of_nat i) in Hl by lia. exists j. split; [lia|]. split; [exact Hl|]. split; [|exact Hb].
        rewrite <- Hp. destruct (nth_error (ev_values E) i) as [v|] eqn:Ev; [|apply nth_error_None in Ev; unfold num_values in *; lia].
        rewrite (skipn_cons_nth (ev_values E) i v Ev). cbn. now rewrite B.
  Qed.
  Lemma si_for_loop s : forall m j, j <= n -> n <= j + m -> (j < n -> bit s j = true) -> forall fuel, m <= fuel ->
    for_loop si_exhausted si_deref si_incr fuel (SetIter s (Z.of_nat j) (Nat.eqb j n)) = Some (Ret (pick s j (skipn j (ev_values E)))).
  Proof.
    induction m as [|m IH]; intros j Hj Hm Hb fuel Hf.
    - replace j with n by lia. rewrite Nat.eqb_refl. rewrite for_loop_done by reflexivity. unfold num_values. rewrite skipn_all. reflexivity.
    - destruct (Nat.eqb_spec j n) as [->|Hn].
      + rewrite for_loop_done by reflexivity. unfold num_values. rewrite skipn_all. reflexivity.
      + destruct fuel as [|fuel]; [lia|]. destruct (nth_error (ev_values E) j) as [v|] eqn:Ev; [|apply nth_error_None in Ev; unfold num_values in *; lia].
        destruct (si_loop_ok s (S n) (S j)) as (k & Hk & Hl & Hp & Hb'); [lia|lia|].
        rewrite (skipn_cons_nth _ j v Ev). cbn [pick]. rewrite Hb by lia. rewrite Hp. apply (for_loop_step _ _ _ fuel _ v (SetIter s (Z.of_nat k) (Nat.eqb k n))).
        * reflexivity.
        * unfold si_deref. cbn. unfold elem. rewrite (proj2 (Z.ltb_ge _ _)) by lia. rewrite Nat2Z.id, Ev. reflexivity.
        * unfold si_incr. cbn [si_exhausted negb expects bind si_value si_index]. replace (Z.of_nat j) with (Z.of_nat (S j) - 1)%Z by lia. exact Hl.
        * apply IH; try lia. exact Hb'.
  Qed.
  Lemma pick_in s l : forall i v, In v (pick s i l) <-> exists k, nth_error l k = Some v /\ bit s (i + k) = true.
  Proof.
    induction l as [|a l IH]; intros i v; cbn [pick].
    - split; [intros []|]. intros (k & H & _). destruct k; discriminate H.
    - assert (Hc : (exists k, nth_error (a :: l) k = Some v /\ bit s (i + k) = true) <-> (a = v /\ bit s i = true) \/ exists k, nth_error l k = Some v /\ bit s (S i + k) = true).
      { split.
        - intros ([|k] & H & B); cbn in H; [left; injection H as ->; rewrite Nat.add_0_r in B; auto|right; exists k; split; [exact H|]; now rewrite Nat.add_succ_comm].
        - intros [[-> B]|(k & H & B)]; [exists 0; rewrite Nat.add_0_r; auto|exists (S k); split; [exact H|]; now rewrite <- Nat.add_succ_comm]. }
      rewrite Hc, <- IH. destruct (bit s i); cbn; intuition discriminate.
  Qed.
  (** The order of the metadata is kept: the enumeration is obtained by leaving values out. *)
  Lemma pick_filter s (HE : enum_ok E) : exists f, pick s 0 (ev_values E) = filter f (ev_values E) /\ forall v, f v = true <-> member s v.
  Proof.
    exists (fun v => match find_value_index v with Ret i => bit s i | _ => false end). split.
    - assert (H : forall l i, (forall k v, nth_error l k = Some v -> nth_error (ev_values E) (i + k) = Some v) ->
        pick s i l = filter (fun v => match find_value_index v with Ret i => bit s i | _ => false end) l).
      { induction l as [|a l IH]; intros i Hi; [reflexivity|]. cbn [pick filter]. pose proof (Hi 0 a eq_refl) as Ha. rewrite Nat.add_0_r in Ha.
        rewrite (proj2 (find_ret_iff HE a i) Ha). rewrite (IH (S i)); [reflexivity|]. intros k v Hk. rewrite Nat.add_succ_comm. now apply (Hi (S k)). }
      apply H. auto.
    - intros v. unfold member, bit. split.
      + destruct (find_value_index v) as [i| | | |] eqn:F; try discriminate. intros B. exists i. split; [now apply (find_ret_iff HE)|exact B].
      + intros (i & Hi & B). now rewrite (proj2 (find_ret_iff HE v i) Hi).
  Qed.
  Lemma enumerate_set_ok s : enum_ok E -> wf_set s -> (exists v, member s v) -> exists l m,
    (forall fuel, m <= fuel -> enumerate_set fuel s = Some (Ret l)) /\ NoDup l /\ (exists f, l = filter f (ev_values E)) /\ forall v, In v l <-> member s v.
  Proof.
    intros HE Hw Hs. destruct (pick_filter s HE) as (f & Ef & Hf). exists (pick s 0 (ev_values E)), n. split; [|split; [|split]].
    - intros fuel Hm. unfold enumerate_set. rewrite (proj2 (assigned_iff s Hw) Hs). unfold si_begin, si_incr. cbn [si_exhausted negb expects bind si_value si_index].
      destruct (si_loop_ok s (S n) 0) as (j & Hj & Hl & Hp & Hb); [lia|lia|]. change (Z.of_nat 0 - 1)%Z with (-1)%Z in Hl. rewrite Hl. cbn [skipn] in Hp. rewrite Hp.
      apply (si_for_loop s n); [lia|lia|exact Hb|exact Hm].
    - rewrite Ef. apply NoDup_filter. apply HE.
    - eauto.
    - intros v. rewrite Ef, filter_In, Hf. split; [tauto|]. intros H. split; [eapply member_in, H|exact H].
  Qed.
  Lemma enumerate_set_empty s fuel : wf_set s -> (forall v, ~ member s v) -> enumerate_set fuel s = Some FailFast.
  Proof. intros Hw H. unfold enumerate_set. now rewrite (proj2 (empty_iff s Hw) H). Qed.
End EnumSet.

(** ** Subscripts *)
Section At.
  Notation index := (int_ordty 64).
  Implicit Type I : ivl index.
  Lemma proper_val I : proper I -> (val (lo I) <= val (hi I))%Z.
  Proof. intros H. now apply Z.leb_le. Qed.
  Lemma at_index_ok {A : Type} (r : list A) (i : index) : (forall v, at_index r i = Ret v <-> (0 <= val i)%Z /\ nth_error r (Z.to_nat (val i)) = Some v)
    /\ (~ (0 <= val i < size r)%Z -> at_index r i = FailFast).
  Proof.
    unfold at_index. destruct (Z.leb_spec 0 (val i)) as [L|L]; cbn [andb]; [destruct (Z.ltb_spec (val i) (size r)) as [U|U]|]; cbn [expects bind].
    - destruct (elem_ok r (val i) (conj L U)) as (e & -> & Ee). split; [|lia]. intros v. rewrite Ee. split; [intros H; injection H as <-; auto|]. intros (_ & H). now injection H as <-.
    - split; [|reflexivity]. intros v. split; [discriminate|]. intros (_ & H). assert (Z.to_nat (val i) < length r) by (apply nth_error_Some; congruence). lia.
    - split; [|reflexivity]. intros v. split; [discriminate|]. lia.
  Qed.
  Section Loop.
    Context {A S : Type} (assign : S -> A -> outcome S) (r : list A) (Hr : (size r <= int_max 64)%Z).
    (** [J k s]: a property of the state after the elements before position [k] were assigned. *)
    Lemma at_loop_ok (J : nat -> S -> Prop) (lo_ : nat) (u : index) (Hu : (val u < size r)%Z) :
      (forall k s v, lo_ <= k -> J k s -> nth_error r k = Some v -> exists s', assign s v = Ret s' /\ J (Datatypes.S k) s') ->
      forall fuel (i : index) s, lo_ <= Z.to_nat (val i) -> (0 <= val i <= val u + 1)%Z -> Z.to_nat (val u + 1 - val i) < fuel -> J (Z.to_nat (val i)) s ->
      exists s', at_loop assign fuel r i u s = Ret s' /\ J (Z.to_nat (val u + 1)) s'.
    Proof.
      intros Hs. induction fuel as [|fuel IH]; intros i s Hlo Hi Hf HJ; [lia|]. cbn [at_loop]. destruct (Z.leb_spec (val i) (val u)) as [L|L].
      - destruct (elem_ok r (val i)) as (v & -> & Ev); [lia|]. cbn [bind]. destruct (Hs _ s v Hlo HJ Ev) as (s' & -> & HJ'). cbn [bind].
        destruct (proj2 (int_of_def 64 (val i + 1))) as (i' & Ei); [pose proof (val_range 64 i); lia|]. rewrite Ei. cbn [bind]. apply int_of_ret in Ei.
        apply IH; try lia. rewrite Ei. replace (Z.to_nat (val i + 1)) with (Datatypes.S (Z.to_nat (val i))) by lia. exact HJ'.
      - exists s. split; [reflexivity|]. replace (val u + 1)%Z with (val i) by lia. exact HJ.
    Qed.
    Lemma at_interval_ok (J : nat -> S -> Prop) init I : proper I -> (0 <= val (lo I))%Z -> (val (hi I) < size r)%Z -> J (Z.to_nat (val (lo I))) init ->
      (forall k s v, Z.to_nat (val (lo I)) <= k -> J k s -> nth_error r k = Some v -> exists s', assign s v = Ret s' /\ J (Datatypes.S k) s') ->
      exists s', at_interval assign init r I = Ret s' /\ J (Z.to_nat (val (hi I) + 1)) s'.
    Proof.
      intros HI H0 H1 HJ Hs. unfold at_interval. rewrite (proper_assigned (int_ord_laws 64) I HI). cbn [expects bind].
      rewrite (proj2 (Z.leb_le _ _) H0), (proj2 (Z.ltb_lt _ _) H1). cbn [andb expects bind]. apply proper_val in HI.
      apply (at_loop_ok J (Z.to_nat (val (lo I)))); auto; lia.
    Qed.
  End Loop.
  Lemma at_interval_fail {A S : Type} (assign : S -> A -> outcome S) init (r : list A) I : ~ (proper I /\ (0 <= val (lo I))%Z /\ (val (hi I) < size r)%Z) ->
    at_interval assign init r I = FailFast.
  Proof.
    intros H. unfold at_interval. destruct (assigned I) eqn:HA; [|reflexivity]. cbn [expects bind].
    destruct (Z.leb_spec 0 (val (lo I))) as [L|L]; [|reflexivity]. cbn [andb]. destruct (Z.ltb_spec (val (hi I)) (size r)) as [U|U]; [|reflexivity].
    exfalso. apply H. split; [|auto]. apply (assigned_proper (int_ord_laws 64)); [apply Z.leb_refl|apply Z.leb_refl|exact HA].
  Qed.

  Section Numbers.
    Context {N : num} (HN : num_laws N).
    Let HO := nl_ord N HN.
    (** Elements of the range at the positions given by [I]. *)
    Lemma at_numbers_hull (r : list (arg N)) I : (size r <= int_max 64)%Z -> (forall a, In a r -> aproper a) -> proper I -> (0 <= val (lo I))%Z -> (val (hi I) < size r)%Z ->
      exists Z, at_numbers r I = Ret Z /\ is_hull (fun v => exists i a, (val (lo I) <= Z.of_nat i <= val (hi I))%Z /\ nth_error r i = Some a /\ ael a v) Z.
    Proof.
      intros Hr Hp HI H0 H1. set (l := Z.to_nat (val (lo I))).
      destruct (at_interval_ok at_assign r Hr (fun k X => holds (fun v => exists i a, l <= i < k /\ nth_error r i = Some a /\ ael a v) X) ivl_default I HI H0 H1) as (Z & HZ & Hh).
      - left. split; [reflexivity|]. intros v (i & a & Hi & _). fold l in Hi. lia.
      - intros k X a Hk HX Ea. pose proof (Hp a (nth_error_In _ _ Ea)) as Pa. fold l in Hk.
        set (Y := match a with Sc x => ivl_of x | Iv Y => Y end).
        assert (EY : forall v, el Y v <-> ael a v) by (intros v; destruct a; reflexivity).
        assert (PY : proper Y) by (destruct a; exact Pa).
        destruct (holds_assign HN _ (el Y) X Y HX (is_hull_self HO Y PY)) as (Z & HZ & Hh). exists Z. split; [exact HZ|]. right. eapply is_hull_ext; [|exact Hh].
        intros v. cbn beta. rewrite EY. split.
        + intros [(i & b & Hi & Eb & Hv)|Hv]; [exists i, b; split; [lia|auto]|]. exists k, a. split; [lia|auto].
        + intros (i & b & Hi & Eb & Hv). destruct (Nat.eq_dec i k) as [->|Hn]; [right; rewrite Ea in Eb; injection Eb as ->; exact Hv|]. left. exists i, b. split; [lia|auto].
      - exists Z. split; [exact HZ|]. apply proper_val in HI. destruct Hh as [[_ Hh]|Hh].
        + exfalso. destruct (elem_ok r (val (lo I))) as (a & _ & Ea); [lia|]. pose proof (Hp a (nth_error_In _ _ Ea)) as Pa. apply (Hh (alower a)). exists l, a. split; [lia|]. split; [exact Ea|]. now apply (ael_lower HO).
        + eapply is_hull_ext; [|exact Hh]. intros v. split; intros (i & a & Hi & Ha); exists i, a; (split; [lia|exact Ha]).
    Qed.
  End Numbers.

  Lemma at_sets_union {E : enum_type} dbg (r : list (vset E)) I : (size r <= int_max 64)%Z -> (forall s, In s r -> wf_set s /\ exists v, member s v) -> proper I -> (0 <= val (lo I))%Z -> (val (hi I) < size r)%Z ->
    exists t, at_sets dbg r I = Ret t /\ wf_set t /\ forall v, member t v <-> exists i s, (val (lo I) <= Z.of_nat i <= val (hi I))%Z /\ nth_error r i = Some s /\ member s v.
  Proof.
    intros Hr Hp HI H0 H1. set (l := Z.to_nat (val (lo I))).
    destruct (at_interval_ok (sfree_assign_partial dbg) r Hr (fun k t => wf_set t /\ forall v, member t v <-> exists i s, l <= i < k /\ nth_error r i = Some s /\ member s v) set_empty I HI H0 H1) as (t & Ht & Hw & Hm).
    - split; [apply wf_empty|]. intros v. split; [intros H; destruct (member_empty v H)|]. intros (i & a & Hi & _). fold l in Hi. lia.
    - intros k t s Hk [Wt Mt] Es. fold l in Hk. destruct (Hp s (nth_error_In _ _ Es)) as [Ws Ns]. exists (mkset (N.lor (state t) (state s))). split; [|split].
      + unfold sfree_assign_partial, set_assign. rewrite (proj2 (assigned_iff s Ws) Ns). now destruct dbg.
      + now apply wf_lor.
      + intros v. rewrite member_lor, Mt. split.
        * intros [(i & b & Hi & Eb & Hv)|Hv]; [exists i, b; split; [lia|auto]|]. exists k, s. split; [lia|auto].
        * intros (i & b & Hi & Eb & Hv). destruct (Nat.eq_dec i k) as [->|Hn]; [right; rewrite Es in Eb; injection Eb as ->; exact Hv|]. left. exists i, b. split; [lia|auto].
    - exists t. split; [exact Ht|]. split; [exact Hw|]. intros v. rewrite Hm. apply proper_val in HI. split; intros (i & a & Hi & Ha); exists i, a; (split; [lia|exact Ha]).
  Qed.
End At.
