(** Search in partitioned ranges. *)
From Coq Require Import Bool List Arith ZArith Lia.
From Verif Require Import Outcome SetModel Spec SetProofs Num NumLaws IntervalModel IvlSpec IvlProofs IntNum IterModel IterProofs ConstrainModel CondSpec
  ConstrainProofs AlgoModel AlgoSpec.
Import ListNotations.
Open Scope nat_scope.

Section Search.
  Context {A : Type}.
  Implicit Types (p : A -> outcome bool) (r : list A) (q : A -> Prop).

  Lemma splits_unique q r k l : splits q r k -> splits q r l -> k = l.
  Proof.
    intros (Hk & Sk) (Hl & Sl). destruct (lt_eq_lt_dec k l) as [[H|H]|H]; [exfalso|exact H|exfalso].
    - destruct (nth_error r k) as [v|] eqn:E; [|apply nth_error_None in E; lia]. apply (proj2 (Sk k v E)); [lia|]. apply (proj1 (Sl k v E)). lia.
    - destruct (nth_error r l) as [v|] eqn:E; [|apply nth_error_None in E; lia]. apply (proj2 (Sl l v E)); [lia|]. apply (proj1 (Sk l v E)). lia.
  Qed.
  Lemma splits_ext (q q' : A -> Prop) r k : (forall v, In v r -> q v <-> q' v) -> splits q r k -> splits q' r k.
  Proof.
    intros H (Hk & S). split; [exact Hk|]. intros i v E. pose proof (H v (nth_error_In _ _ E)) as Q. destruct (S i v E). tauto.
  Qed.
  Lemma partitioned_iff (f : A -> bool) r : is_partitioned (map f r) = true <-> exists k, splits (fun v => f v = true) r k.
  Proof.
    induction r as [|a r IH]; cbn.
    - split; [|reflexivity]. intros _. exists 0. split; [auto|]. intros [|i] v E; discriminate E.
    - destruct (f a) eqn:Fa.
      + rewrite IH. split.
        * intros (k & Hk & S). exists (Datatypes.S k). split; [cbn; lia|]. intros [|i] v E; cbn in E.
          -- injection E as <-. split; [auto|]. lia.
          -- destruct (S i v E) as [S1 S2]. split; intros; [apply S1|apply S2]; lia.
        * intros (k & Hk & S). destruct k as [|k]; [exfalso; apply (proj2 (S 0 a eq_refl)); [lia|exact Fa]|]. exists k. split; [cbn in Hk; lia|].
          intros i v E. destruct (S (Datatypes.S i) v E) as [S1 S2]. split; intros; [apply S1|apply S2]; lia.
      + split.
        * intros H. exists 0. split; [lia|]. intros [|i] v E; cbn in E; (split; [lia|]); intros _.
          -- injection E as <-. now rewrite Fa.
          -- rewrite forallb_forall in H. specialize (H (f v) (in_map f _ _ (nth_error_In _ _ E))). now destruct (f v).
        * intros (k & Hk & S). destruct k as [|k].
          -- apply forallb_forall. intros b Hb. apply in_map_iff in Hb as (v & <- & Hv). apply In_nth_error in Hv as (i & E).
             destruct (S (Datatypes.S i) v E) as [_ S2]. destruct (f v); [exfalso; apply S2; [lia|reflexivity]|reflexivity].
          -- exfalso. pose proof (proj1 (S 0 a eq_refl)). rewrite Fa in H. discriminate H. lia.
  Qed.

  Lemma div2_lt n : n <> 0 -> Nat.div2 n < n.
  Proof. intros H. apply Nat.lt_div2. lia. Qed.
  Lemma pp_loop_ok p r k : (forall v, In v r -> exists b, p v = Ret b) -> splits (fun v => p v = Ret true) r k ->
    forall fuel first len, len < fuel -> first <= k <= first + len -> first + len <= length r -> pp_loop fuel p r first len = Ret k.
  Proof.
    intros Ht (Hk & S). induction fuel as [|fuel IH]; intros first len Hf Hfk Hl; [lia|]. cbn [pp_loop].
    destruct (Nat.eqb_spec len 0) as [->|Hn]; [f_equal; lia|].
    pose proof (div2_lt len Hn) as Hh. destruct (nth_error r (first + Nat.div2 len)) as [v|] eqn:E; [|apply nth_error_None in E; lia].
    destruct (Ht v (nth_error_In _ _ E)) as (b & Hb). rewrite Hb. cbn [bind]. destruct (S _ _ E) as [S1 S2].
    destruct b.
    - apply IH; try lia. split; [|lia]. destruct (le_lt_dec k (first + Nat.div2 len)) as [H|H]; [exfalso; apply S2; assumption|lia].
    - apply IH; try lia. split; [lia|]. destruct (le_lt_dec k (first + Nat.div2 len)) as [H|H]; [exact H|]. apply S1 in H. rewrite Hb in H. discriminate H.
  Qed.
  Lemma std_pp_ok p r k : (forall v, In v r -> exists b, p v = Ret b) -> splits (fun v => p v = Ret true) r k -> std_partition_point p r = Ret k.
  Proof.
    intros Ht S. unfold std_partition_point. replace (is_partitioned _) with true.
    - apply pp_loop_ok; auto; destruct S; lia.
    - symmetry. apply partitioned_iff. exists k. revert S. apply splits_ext. intros v Hv. unfold succeeds. destruct (Ht v Hv) as (b & ->). split; congruence.
  Qed.
  Lemma std_pp_ub p r : (forall v, In v r -> exists b, p v = Ret b) -> (forall k, ~ splits (fun v => p v = Ret true) r k) -> std_partition_point p r = UB.
  Proof.
    intros Ht S. unfold std_partition_point. destruct (is_partitioned _) eqn:E; [|reflexivity]. exfalso.
    apply partitioned_iff in E as (k & H). apply (S k). revert H. apply splits_ext. intros v Hv. unfold succeeds. destruct (Ht v Hv) as (b & ->). split; congruence.
  Qed.
  Lemma std_pp_inv p r k : (forall v, In v r -> exists b, p v = Ret b) -> std_partition_point p r = Ret k -> splits (fun v => p v = Ret true) r k.
  Proof.
    intros Ht H. assert (Hp : is_partitioned (map (succeeds p) r) = true). { unfold std_partition_point in H. destruct (is_partitioned _); [reflexivity|discriminate H]. }
    apply partitioned_iff in Hp as (l & Hl). assert (Hl' : splits (fun v => p v = Ret true) r l).
    { revert Hl. apply splits_ext. intros v Hv. unfold succeeds. destruct (Ht v Hv) as (b & ->). split; congruence. }
    pose proof (std_pp_ok p r l Ht Hl') as E. rewrite H in E. injection E as ->. exact Hl'.
  Qed.
  Lemma iter_at r k : k <= length r -> exists i, iter_of (size r) (Z.of_nat k) = Ret i /\ idx i = Z.of_nat k.
  Proof.
    intros H. destruct (proj2 (@iter_of_def (size r) (Z.of_nat k))) as (i & E); [lia|]. exists i. split; [exact E|]. now apply iter_of_ret.
  Qed.

  (** A predicate convertible to bool. *)
  Lemma partition_point_bool_ok p r k : (forall v, In v r -> exists b, p v = Ret b) -> splits (fun v => p v = Ret true) r k ->
    exists i, partition_point_bool p r = Ret i /\ idx i = Z.of_nat k.
  Proof.
    intros Ht S. unfold partition_point_bool. rewrite (std_pp_ok p r k Ht S). cbn [bind]. destruct (iter_at r k (proj1 S)) as (i & E & H). eauto.
  Qed.

  (** A predicate whose value is a set. *)
  Context {O : ordty}.
  Lemma always_iff (s : bset) : always s = true <-> ~ member s false.
  Proof. unfold always. rewrite (bmember_iff s false). destruct (bcontains s false); cbn; intuition discriminate. Qed.
  Lemma possibly_iff (s : bset) : possibly s = true <-> member s true.
  Proof. unfold possibly. now rewrite (bmember_iff s true). Qed.

  Lemma partition_point_set_eq (p : A -> outcome (cond O)) (s : A -> bset) r k l : (forall v, In v r -> exists c, p v = Ret c /\ cset c = s v) ->
    splits (fun v => ~ member (s v) false) r k -> splits (fun v => member (s v) true) r l ->
    exists i j, idx i = Z.of_nat k /\ idx j = Z.of_nat l /\ partition_point_set p r = @mk (iter_ordty (size r)) i j.
  Proof.
    intros Ht Sk Sl. unfold partition_point_set.
    assert (Ta : forall v, In v r -> (c <- p v ;; Ret (always (cset c))) = Ret (always (s v))). { intros v Hv. destruct (Ht v Hv) as (c & -> & E). cbn. now rewrite E. }
    assert (Tp : forall v, In v r -> (c <- p v ;; Ret (possibly (cset c))) = Ret (possibly (s v))). { intros v Hv. destruct (Ht v Hv) as (c & -> & E). cbn. now rewrite E. }
    rewrite (std_pp_ok (fun v => c <- p v ;; Ret (always (cset c))) r k); [rewrite (std_pp_ok (fun v => c <- p v ;; Ret (possibly (cset c))) r l)|..].
    - cbn [bind]. destruct (iter_at r k (proj1 Sk)) as (i & Ei & Hi). destruct (iter_at r l (proj1 Sl)) as (j & Ej & Hj). rewrite Ei, Ej. cbn [bind]. eauto.
    - intros v Hv. rewrite (Tp v Hv). eauto.
    - revert Sl. apply splits_ext. intros v Hv. rewrite (Tp v Hv), <- possibly_iff. split; congruence.
    - intros v Hv. rewrite (Ta v Hv). eauto.
    - revert Sk. apply splits_ext. intros v Hv. rewrite (Ta v Hv), <- always_iff. split; congruence.
  Qed.
  Lemma splits_mono (q q' : A -> Prop) r k l : (forall v, In v r -> q v -> q' v) -> splits q r k -> splits q' r l -> k <= l.
  Proof.
    intros H (Hk & Sk) (Hl & Sl). destruct (le_lt_dec k l) as [L|L]; [exact L|exfalso].
    destruct (nth_error r l) as [v|] eqn:E; [|apply nth_error_None in E; lia]. apply (proj2 (Sl l v E)); [lia|].
    apply H; [eapply nth_error_In, E|]. apply (proj1 (Sk l v E)). lia.
  Qed.
  Lemma mk_iter {n} (i j : iter n) : (idx i <= idx j)%Z -> @mk (iter_ordty n) i j = Ret (@Ivl (iter_ordty n) i j).
  Proof. intros H. apply (mk_proper iter_ord_laws). cbn. now apply Z.leb_le. Qed.

  Lemma partition_point_set_hull (p : A -> outcome (cond O)) (s : A -> bset) r k l : (forall v, In v r -> exists c, p v = Ret c /\ cset c = s v) ->
    (forall v, In v r -> exists b : bool, member (s v) b) ->
    splits (fun v => ~ member (s v) false) r k -> splits (fun v => member (s v) true) r l ->
    exists P, partition_point_set p r = Ret P /\ idx (lo P) = Z.of_nat k /\ idx (hi P) = Z.of_nat l
      /\ is_hull (fun i : iter_ordty (size r) => exists (q : A -> bool) m, selects s q r /\ splits (fun v => q v = true) r m /\ idx i = Z.of_nat m) P.
  Proof.
    intros Ht Hn Sk Sl. destruct (partition_point_set_eq p s r k l Ht Sk Sl) as (i & j & Hi & Hj & E).
    assert (Hs : forall v, In v r -> ~ member (s v) false -> member (s v) true). { intros v Hv H. destruct (Hn v Hv) as ([|] & Hb); [exact Hb|contradiction]. }
    pose proof (splits_mono _ _ r k l Hs Sk Sl) as Hkl. rewrite E, mk_iter by lia. eexists. split; [reflexivity|]. split; [exact Hi|]. split; [exact Hj|]. split; [|split].
    - intros m (q & m' & Hq & Sq & Hm). apply el_idx. cbn. rewrite Hi, Hj, Hm. split; apply Nat2Z.inj_le.
      + refine (splits_mono _ _ r k m' _ Sk Sq). intros v Hv Hf. specialize (Hq v Hv). destruct (q v); [reflexivity|contradiction].
      + refine (splits_mono _ _ r m' l _ Sq Sl). intros v Hv Hf. specialize (Hq v Hv). now rewrite Hf in Hq.
    - exists i. split; [|cbn; apply Z.eqb_refl]. exists (fun v => always (s v)), k. split; [|split; [|exact Hi]].
      + intros v Hv. destruct (always (s v)) eqn:Ea; [apply Hs; [exact Hv|]; now apply always_iff|]. apply bmember_iff. unfold always in Ea. now apply negb_false_iff in Ea.
      + revert Sk. apply splits_ext. intros v _. now rewrite always_iff.
    - exists j. split; [|cbn; apply Z.eqb_refl]. exists (fun v => possibly (s v)), l. split; [|split; [|exact Hj]].
      + intros v Hv. destruct (possibly (s v)) eqn:Ea; [now apply possibly_iff|]. destruct (Hn v Hv) as ([|] & Hb); [apply possibly_iff in Hb; congruence|exact Hb].
      + revert Sl. apply splits_ext. intros v _. now rewrite possibly_iff.
  Qed.
  (** A predicate without a value: the two searches give the positions in the wrong order. *)
  Lemma partition_point_vacuous (p : A -> outcome (cond O)) r : r <> [] -> (forall v, In v r -> exists c, p v = Ret c /\ forall b : bool, ~ member (cset c) b) ->
    partition_point_set p r = FailFast.
  Proof.
    intros Hr Ht. pose (s := fun v => match p v with Ret c => cset c | _ => set_empty end).
    assert (Hs : forall v, In v r -> forall b : bool, ~ member (s v) b). { intros v Hv b. destruct (Ht v Hv) as (c & Hc & He). unfold s. rewrite Hc. apply He. }
    destruct (partition_point_set_eq p s r (length r) 0) as (i & j & Hi & Hj & ->).
    - intros v Hv. unfold s. destruct (Ht v Hv) as (c & -> & He). eauto.
    - split; [lia|]. intros i v E. split; [|intros H; exfalso; apply nth_error_None in H; congruence]. intros _. apply Hs. eapply nth_error_In, E.
    - split; [lia|]. intros i v E. split; [lia|]. intros _. apply Hs. eapply nth_error_In, E.
    - unfold mk. cbn. replace (idx j <? idx i)%Z with true; [reflexivity|]. symmetry. apply Z.ltb_lt. destruct r; [congruence|]. cbn in *. lia.
  Qed.
End Search.

Section Bounds.
  Context {O : ordty} (HO : ord_laws O) (dbg : bool).
  Implicit Types (r : list O) (v e : O) (V : ivl O).
  Lemma sorted_ok r : sorted r -> forall e, In e r -> ok e.
  Proof. intros S e H. apply In_nth_error in H as (i & E). apply (S i i e e); auto. Qed.
  (** In a sorted range every threshold has a partition point. *)
  Lemma count_lt r (f : O -> bool) : sorted r -> (forall d e, In d r -> In e r -> o_le d e = true -> f e = true -> f d = true) -> exists k, splits (fun e => f e = true) r k.
  Proof.
    intros S Hf. apply partitioned_iff. revert S Hf. induction r as [|a r IH]; intros S Hf; [reflexivity|]. cbn.
    assert (S' : sorted r). { intros i j d e L Ei Ej. apply (S (Datatypes.S i) (Datatypes.S j)); auto. lia. }
    destruct (f a) eqn:Fa; [apply IH; [exact S'|]; intros; eapply Hf; eauto; now right|].
    apply forallb_forall. intros b Hb. apply in_map_iff in Hb as (e & <- & He). destruct (f e) eqn:Fe; [|reflexivity]. exfalso.
    assert (f a = true); [|congruence]. apply In_nth_error in He as (i & Ei). apply (Hf a e); [now left|right; eapply nth_error_In, Ei| |exact Fe].
    apply (S 0 (Datatypes.S i)); auto. lia.
  Qed.
  Lemma lower_exists r v : sorted r -> exists k, lower_bound_at r v k.
  Proof. intros S. apply (count_lt r (fun e => o_lt e v) S). intros d e _ _. ord HO. Qed.
  Lemma upper_exists r v : sorted r -> ok v -> exists k, upper_bound_at r v k.
  Proof.
    intros S Hv. destruct (count_lt r (fun e => negb (o_lt v e)) S) as (k & H).
    - intros d e Hd He. pose proof (sorted_ok r S d Hd). pose proof (sorted_ok r S e He). ord HO.
    - exists k. revert H. apply splits_ext. intros e _. now rewrite negb_true_iff.
  Qed.
  Lemma lower_scalar r v k : lower_bound_at r v k -> exists i, lower_bound_scalar r v = Ret i /\ idx i = Z.of_nat k.
  Proof.
    intros S. apply partition_point_bool_ok; [intros e _; eexists; reflexivity|]. revert S. apply splits_ext. intros e _. unfold lower_pred_scalar. split; congruence.
  Qed.
  Lemma upper_scalar r v k : upper_bound_at r v k -> exists i, upper_bound_scalar r v = Ret i /\ idx i = Z.of_nat k.
  Proof.
    intros S. apply partition_point_bool_ok; [intros e _; eexists; reflexivity|]. revert S. apply splits_ext. intros e _. unfold upper_pred_scalar.
    destruct (o_lt v e); cbn; split; congruence.
  Qed.

  Lemma legal_lt (s t : term O) : aproper (op_arg (operand_of s)) -> aproper (op_arg (operand_of t)) -> legal (GRel RLt s t).
  Proof. intros Hs Ht. split; [|exact Logic.I]. split; [destruct s|destruct t]; assumption. Qed.
  Definition set_val (o : outcome (cond O)) : bset := match o with Ret c => cset c | _ => set_empty end.
  Lemma lower_val (t : term O) e : aproper (op_arg (operand_of t)) -> ok e -> exists c, lower_pred dbg (operand_of t) e = Ret c
    /\ forall b : bool, member (cset c) b <-> exists v, tel t v /\ o_lt e v = b.
  Proof.
    intros Ht He. destruct (build_ok HO dbg (GRel RLt (TVal (Sc e)) t)) as (c & Hc & _ & Hm); [apply legal_lt; [exact He|exact Ht]|].
    exists c. split; [exact Hc|]. intros b. rewrite Hm, possible_rel. cbn [tel rel_holds]. split.
    - intros (x & y & [L1 L2] & Hy & E). cbn in L1, L2. exists y. split; [exact Hy|]. rewrite <- E. destruct (o_lt e y) eqn:?, (o_lt x y) eqn:?; try reflexivity; exfalso; clear - HO L1 L2 Heqb0 Heqb1; ord HO.
    - intros (y & Hy & E). exists e, y. split; [split; exact He|]. auto.
  Qed.
  Lemma upper_val (t : term O) e : aproper (op_arg (operand_of t)) -> ok e -> exists c, upper_pred dbg (operand_of t) e = Ret c
    /\ forall b : bool, member (cset c) b <-> exists v, tel t v /\ negb (o_lt v e) = b.
  Proof.
    intros Ht He. destruct (build_ok HO dbg (GNot (GRel RLt t (TVal (Sc e))))) as (c & Hc & _ & Hm); [apply legal_lt; [exact Ht|exact He]|].
    exists c. split; [exact Hc|]. intros b. rewrite Hm, possible_not, possible_rel. cbn [tel rel_holds]. split.
    - intros (x & y & Hx & [L1 L2] & E). cbn in L1, L2. exists x. split; [exact Hx|]. rewrite <- (negb_involutive b), <- E. f_equal.
      destruct (o_lt x e) eqn:?, (o_lt x y) eqn:?; try reflexivity; exfalso; clear - HO L1 L2 Heqb0 Heqb1; ord HO.
    - intros (y & Hy & E). exists y, e. split; [exact Hy|]. split; [split; exact He|]. now rewrite <- E, negb_involutive.
  Qed.
  (** Both searches: the hull of the scalar positions. *)
  Lemma lower_bound_hull (t : term O) r : aproper (op_arg (operand_of t)) -> sorted r ->
    exists P, lower_bound dbg r (operand_of t) = Ret P /\ is_hull (fun i : iter_ordty (size r) => exists v m, tel t v /\ lower_bound_at r v m /\ idx i = Z.of_nat m) P.
  Proof.
    intros Ht S. pose proof (sorted_ok r S) as Hok. set (a := op_arg (operand_of t)) in *.
    destruct (lower_exists r (alower a) S) as (k & Sk). destruct (lower_exists r (aupper a) S) as (l & Sl).
    pose proof (ael_lower HO a Ht) as La. pose proof (ael_upper HO a Ht) as Ua.
    destruct (partition_point_set_eq (lower_pred dbg (operand_of t)) (fun e => set_val (lower_pred dbg (operand_of t) e)) r k l) as (i & j & Hi & Hj & E).
    - intros e He. destruct (lower_val t e Ht (Hok e He)) as (c & -> & _). eauto.
    - revert Sk. apply splits_ext. intros e He. destruct (lower_val t e Ht (Hok e He)) as (c & -> & Hm). cbn. rewrite Hm. split.
      + intros L (v & Hv & F). apply term_el in Hv. fold a in Hv. destruct Hv as [Hv _]. clear - HO L F Hv. ord HO.
      + intros N. destruct (o_lt e (alower a)) eqn:F; [reflexivity|]. exfalso. apply N. exists (alower a). split; [now apply term_el|exact F].
    - revert Sl. apply splits_ext. intros e He. destruct (lower_val t e Ht (Hok e He)) as (c & -> & Hm). cbn. rewrite Hm. split.
      + intros L. exists (aupper a). split; [now apply term_el|exact L].
      + intros (v & Hv & F). apply term_el in Hv. fold a in Hv. destruct Hv as [_ Hv]. clear - HO F Hv. ord HO.
    - assert (Hmono : forall v w m m', o_le v w = true -> lower_bound_at r v m -> lower_bound_at r w m' -> m <= m').
      { intros v w m m' L. apply splits_mono. intros e _. clear - HO L. ord HO. }
      unfold lower_bound. rewrite E, mk_iter by (pose proof (Hmono _ _ _ _ Ht Sk Sl); lia). eexists. split; [reflexivity|]. split; [|split].
      + intros q (v & m & Hv & Sm & Hq). apply term_el in Hv. fold a in Hv. destruct Hv as [L U]. apply el_idx. cbn. rewrite Hi, Hj, Hq.
        split; apply Nat2Z.inj_le; eauto.
      + exists i. split; [|apply Z.eqb_refl]. exists (alower a), k. split; [now apply term_el|auto].
      + exists j. split; [|apply Z.eqb_refl]. exists (aupper a), l. split; [now apply term_el|auto].
  Qed.
  Lemma upper_bound_hull (t : term O) r : aproper (op_arg (operand_of t)) -> sorted r ->
    exists P, upper_bound dbg r (operand_of t) = Ret P /\ is_hull (fun i : iter_ordty (size r) => exists v m, tel t v /\ upper_bound_at r v m /\ idx i = Z.of_nat m) P.
  Proof.
    intros Ht S. pose proof (sorted_ok r S) as Hok. set (a := op_arg (operand_of t)) in *.
    pose proof (ael_lower HO a Ht) as La. pose proof (ael_upper HO a Ht) as Ua.
    destruct (upper_exists r (alower a) S (ael_ok HO a _ La)) as (k & Sk). destruct (upper_exists r (aupper a) S (ael_ok HO a _ Ua)) as (l & Sl).
    destruct (partition_point_set_eq (upper_pred dbg (operand_of t)) (fun e => set_val (upper_pred dbg (operand_of t) e)) r k l) as (i & j & Hi & Hj & E).
    - intros e He. destruct (upper_val t e Ht (Hok e He)) as (c & -> & _). eauto.
    - revert Sk. apply splits_ext. intros e He. pose proof (Hok e He) as Oe. destruct (upper_val t e Ht Oe) as (c & -> & Hm). cbn. rewrite Hm. split.
      + intros L (v & Hv & F). apply term_el in Hv. fold a in Hv. destruct Hv as [Hv _]. apply negb_false_iff in F. clear - HO L F Hv. ord HO.
      + intros N. destruct (o_lt (alower a) e) eqn:F; [|reflexivity]. exfalso. apply N. exists (alower a). split; [now apply term_el|now rewrite F].
    - revert Sl. apply splits_ext. intros e He. pose proof (Hok e He) as Oe. destruct (upper_val t e Ht Oe) as (c & -> & Hm). cbn. rewrite Hm. split.
      + intros L. exists (aupper a). split; [now apply term_el|now rewrite L].
      + intros (v & Hv & F). apply term_el in Hv. fold a in Hv. pose proof (ael_ok HO a _ Hv). destruct Hv as [_ Hv]. apply negb_true_iff in F. clear - HO F Hv Oe H. ord HO.
    - assert (Hmono : forall v w m m', o_le v w = true -> upper_bound_at r v m -> upper_bound_at r w m' -> m <= m').
      { intros v w m m' L. apply splits_mono. intros e He. pose proof (Hok e He) as Oe. clear - HO L Oe. ord HO. }
      unfold upper_bound. rewrite E, mk_iter by (pose proof (Hmono _ _ _ _ Ht Sk Sl); lia). eexists. split; [reflexivity|]. split; [|split].
      + intros q (v & m & Hv & Sm & Hq). apply term_el in Hv. fold a in Hv. destruct Hv as [L U]. apply el_idx. cbn. rewrite Hi, Hj, Hq.
        split; apply Nat2Z.inj_le; eauto.
      + exists i. split; [|apply Z.eqb_refl]. exists (alower a), k. split; [now apply term_el|auto].
      + exists j. split; [|apply Z.eqb_refl]. exists (aupper a), l. split; [now apply term_el|auto].
  Qed.
End Bounds.
