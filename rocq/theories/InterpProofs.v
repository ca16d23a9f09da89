(** Nearest-neighbour interpolation. *)
From Coq Require Import Bool List Arith ZArith Lia.
From Verif Require Import Outcome SetModel Spec SetProofs Num NumLaws IntervalModel IvlSpec IvlProofs IntNum IntProofs IterModel IterProofs ArithProofs4
  ConstrainModel CondSpec ConstrainProofs AlgoModel AlgoSpec AlgoProofs AlgoProofs2 AlgoProofs3 MathModel LangModel InterpModel InterpSpec.
Import ListNotations.
Open Scope nat_scope.

Lemma int_min_neg : (int_min 64 <= 0)%Z.
Proof. discriminate. Qed.
Lemma nth_index_range n i : nth_error (index_range n) i = if i <? n then Some (Z.of_nat i) else None.
Proof.
  unfold index_range. destruct (Nat.ltb_spec i n) as [H|H].
  - rewrite nth_error_map. assert (E : nth_error (seq 0 n) i = Some (nth i (seq 0 n) 0)) by (apply nth_error_nth'; now rewrite seq_length). rewrite E, seq_nth by exact H. reflexivity.
  - apply nth_error_None. now rewrite map_length, seq_length.
Qed.
Lemma in_index_range n z : In z (index_range n) <-> exists i, i < n /\ z = Z.of_nat i.
Proof.
  unfold index_range. rewrite in_map_iff. split.
  - intros (i & <- & H). apply List.in_seq in H. exists i. split; [lia|reflexivity].
  - intros (i & H & ->). exists i. split; [reflexivity|]. apply List.in_seq. lia.
Qed.
Lemma index_range_length n : length (index_range n) = n.
Proof. unfold index_range. now rewrite map_length, seq_length. Qed.

Lemma halves_nth {A : Type} (mid : A -> A -> A) xs i m :
  nth_error (halves mid xs) i = Some m <-> exists a b, nth_error xs i = Some a /\ nth_error xs (S i) = Some b /\ m = mid a b.
Proof.
  revert i. induction xs as [|a xs IH]; intros i; [destruct i; (split; [discriminate|]); intros (a & b & H & _); discriminate H|].
  destruct xs as [|b xs].
  - destruct i; (split; [discriminate|]); intros (c & d & _ & H & _); [|destruct i]; discriminate H.
  - cbn [halves]. destruct i as [|i].
    + cbn. split; [intros H; injection H as <-; eauto|]. intros (c & d & H1 & H2 & ->). congruence.
    + exact (IH i).
Qed.
Lemma halves_length {A : Type} (mid : A -> A -> A) xs : length (halves mid xs) = length xs - 1.
Proof. induction xs as [|a [|b xs] IH]; [reflexivity|reflexivity|]. cbn [halves length] in *. rewrite IH. lia. Qed.
Lemma halves_sorted {O : ordty} (HO : ord_laws O) (mid : O -> O -> O) xs : sorted xs -> between mid xs -> sorted (halves mid xs).
Proof.
  intros S B i j v w L Ei Ej. apply halves_nth in Ei as (a & b & Ea & Eb & ->). apply halves_nth in Ej as (c & d & Ec & Ed & ->).
  destruct (B i a b Ea Eb) as [B1 B2], (B j c d Ec Ed) as [B3 B4]. destruct (Nat.eq_dec i j) as [->|Hn].
  - rewrite Ea in Ec. rewrite Eb in Ed. injection Ec as <-. injection Ed as <-. clear - HO B1. ord HO.
  - assert (o_le b c = true) by (apply (S (Datatypes.S i) j); auto; lia). clear - HO B2 B3 H. ord HO.
Qed.

Section Nearest.
  Context {N : num} (HN : num_laws N) (dbg : bool) (mid : N -> N -> N).
  Let HO := nl_ord N HN.
  Notation index := (int_ordty 64).

  Lemma splits_index {A : Type} (q : A -> Prop) (p : Z -> Prop) hs k : (forall i m, nth_error hs i = Some m -> p (Z.of_nat i) <-> q m) -> splits q hs k -> splits p (index_range (length hs)) k.
  Proof.
    intros H [Hk S]. split; [now rewrite index_range_length|]. intros i z E. rewrite nth_index_range in E. destruct (Nat.ltb_spec i (length hs)) as [L|L]; [|discriminate E].
    injection E as <-. destruct (nth_error hs i) as [m|] eqn:Em; [|apply nth_error_None in Em; lia]. rewrite (H i m Em). exact (S i m Em).
  Qed.
  Lemma elems_half xs i m : nth_error (halves mid xs) i = Some m -> exists a b, elem xs (Z.of_nat i) = Ret a /\ elem xs (Z.of_nat i + 1) = Ret b /\ m = mid a b.
  Proof.
    intros H. apply halves_nth in H as (a & b & Ea & Eb & ->). exists a, b. unfold elem. rewrite !(proj2 (Z.ltb_ge _ _)) by lia.
    replace (Z.to_nat (Z.of_nat i + 1)) with (S i) by lia. now rewrite Nat2Z.id, Ea, Eb.
  Qed.
  Lemma half_pred_ok xs x i m : nth_error (halves mid xs) i = Some m -> half_pred dbg mid xs x (Z.of_nat i) = lower_pred dbg x m.
  Proof. intros H. destruct (elems_half xs i m H) as (a & b & Ea & Eb & ->). unfold half_pred. now rewrite Ea, Eb. Qed.
  Lemma half_scalar_ok xs x i m : nth_error (halves mid xs) i = Some m -> half_pred_scalar mid xs x (Z.of_nat i) = Ret (o_lt m x).
  Proof. intros H. destruct (elems_half xs i m H) as (a & b & Ea & Eb & ->). unfold half_pred_scalar. now rewrite Ea, Eb. Qed.
  Lemma in_halves xs z : In z (index_range (length xs - 1)) -> exists i m, z = Z.of_nat i /\ nth_error (halves mid xs) i = Some m.
  Proof.
    rewrite <- (halves_length mid), in_index_range. intros (i & H & ->). destruct (nth_error (halves mid xs) i) as [m|] eqn:E; [eauto|]. apply nth_error_None in E. lia.
  Qed.

  (** Dereferencing an interval of positions. *)
  Lemma index_loop_ok k (R : ivl int64) : forall fuel pos e, (0 <= k <= pos)%Z -> (pos <= e + 1)%Z -> (e <= int_max 64)%Z -> Z.to_nat (e + 1 - pos) < fuel ->
    holds (fun v : int64 => (k <= val v < pos)%Z) R ->
    exists I, index_loop fuel pos e R = Ret I /\ holds (fun v : int64 => (k <= val v <= e)%Z) I.
  Proof.
    intros fuel. revert R. induction fuel as [|fuel IH]; intros R pos e Hk He Hm Hf HR; [lia|]. cbn [index_loop]. destruct (Z.leb_spec pos e) as [L|L].
    - destruct (proj2 (int_of_def 64 pos)) as (v & Ev); [pose proof (int_min_neg); lia|]. rewrite Ev. cbn [bind]. apply int_of_ret in Ev.
      apply IH; try lia. right. eapply is_hull_ext; [|exact (holds_assign_value (int_num_laws 64 le_2_64) _ R v HR (Z.leb_refl _))]. intros u. cbn. rewrite Z.eqb_eq. lia.
    - exists R. split; [reflexivity|]. eapply holds_ext; [|exact HR]. intros v. cbn. lia.
  Qed.
  Lemma index_deref_ok {n} (P : ivl (iter_ordty n)) : (n <= int_max 64)%Z -> proper P -> exists I, index_deref P = Ret I /\ val (lo I) = idx (lo P) /\ val (hi I) = idx (hi P).
  Proof.
    intros Hn HP. apply proper_idx in HP. pose proof (idx_range (lo P)) as R1. pose proof (idx_range (hi P)) as R2. unfold index_deref.
    destruct (index_loop_ok (idx (lo P)) ivl_default (S (S (Z.to_nat n))) (idx (lo P)) (idx (hi P))) as (I & E & H); try lia.
    - left. split; [reflexivity|]. intros v. lia.
    - exists I. split; [exact E|]. destruct H as [[_ H]|(H & (v & Hv & Ev) & (w & Hw & Ew))].
      + exfalso. destruct (proj2 (int_of_def 64 (idx (lo P)))) as (v & Ev); [pose proof (int_min_neg); lia|]. apply int_of_ret in Ev. apply (H v). lia.
      + destruct (proj2 (int_of_def 64 (idx (lo P)))) as (a & Ea); [pose proof (int_min_neg); lia|]. apply int_of_ret in Ea.
        destruct (proj2 (int_of_def 64 (idx (hi P)))) as (b & Eb); [pose proof (int_min_neg); lia|]. apply int_of_ret in Eb.
        destruct (H a ltac:(lia)) as [A1 _]. destruct (H b ltac:(lia)) as [_ B2]. cbn in *. rewrite Z.leb_le in A1, B2. rewrite Z.eqb_eq in Ev, Ew. lia.
  Qed.

  Context (xs ys : list N) (HS : sorted xs) (HB : between mid xs) (H2 : 2 <= length xs) (HL : length xs = length ys) (Hmax : (size xs <= int_max 64)%Z).
  Let hs := halves mid xs.
  Let HSh : sorted hs := halves_sorted HO mid xs HS HB.

  Lemma nearest_scalar_ok x : exists k y, lower_bound_at hs x k /\ nth_error ys k = Some y /\ nearest_scalar dbg mid xs ys x = Ret y.
  Proof.
    destruct (lower_exists HO hs x HSh) as (k & Sk). exists k.
    assert (Lk : k < length ys). { destruct Sk as [Lk _]. unfold hs in Lk. rewrite halves_length in Lk. lia. }
    destruct (nth_error ys k) as [y|] eqn:Ey; [|apply nth_error_None in Ey; lia]. exists y. split; [exact Sk|]. split; [reflexivity|].
    unfold nearest_scalar. rewrite (proj2 (Nat.leb_le _ _) H2), (proj2 (Nat.eqb_eq _ _) HL). cbn [expects bind].
    replace (expects_debug dbg true) with (Ret tt) by now destruct dbg. cbn [bind].
    rewrite (std_pp_ok _ _ k).
    - cbn [bind]. destruct (proj2 (int_of_def 64 (Z.of_nat k))) as (i & Ei); [pose proof (int_min_neg); lia|]. rewrite Ei. cbn [bind]. apply int_of_ret in Ei.
      apply at_index_ok. rewrite Ei, Nat2Z.id. split; [lia|exact Ey].
    - intros z Hz. destruct (in_halves xs z Hz) as (i & m & -> & Em). rewrite (half_scalar_ok xs x i m Em). eauto.
    - rewrite <- (halves_length mid). revert Sk. apply splits_index. intros i m Em. rewrite (half_scalar_ok xs x i m Em). split; congruence.
  Qed.

  Context (Hys : forall y, In y ys -> ok y) (X : ivl N) (HX : proper X).
  Lemma nearest_runs : exists k l Z, lower_bound_at hs (lo X) k /\ lower_bound_at hs (hi X) l /\ k <= l /\ nearest dbg mid xs ys X = Ret Z
    /\ is_hull (fun v => exists i y, k <= i <= l /\ nth_error ys i = Some y /\ o_eq y v = true) Z.
  Proof.
    destruct (lower_exists HO hs (lo X) HSh) as (k & Sk). destruct (lower_exists HO hs (hi X) HSh) as (l & Sl). exists k, l.
    assert (Hkl : k <= l). { refine (splits_mono _ _ hs k l _ Sk Sl). intros e _. unfold proper in HX. clear - HO HX. ord HO. }
    assert (Lk : l < length ys). { destruct Sl as [Lk _]. unfold hs in Lk. rewrite halves_length in Lk. lia. }
    unfold nearest. rewrite (proj2 (Nat.leb_le _ _) H2), (proj2 (Nat.eqb_eq _ _) HL). cbn [expects bind].
    replace (expects_debug dbg true) with (Ret tt) by now destruct dbg. cbn [bind].
    assert (Pv : forall i m, nth_error hs i = Some m -> exists c, half_pred dbg mid xs (OpId 0 X) (Z.of_nat i) = Ret c /\ forall b : bool, member (cset c) b <-> exists v, el X v /\ o_lt m v = b).
    { intros i m Em. unfold hs in Em. rewrite (half_pred_ok xs (OpId 0 X) i m Em). apply (lower_val HO dbg (TVar 0 X) m HX). apply (sorted_ok hs HSh). eapply nth_error_In. exact Em. }
    destruct (partition_point_set_eq (half_pred dbg mid xs (OpId 0 X)) (fun z => set_val (half_pred dbg mid xs (OpId 0 X) z)) (index_range (length xs - 1)) k l) as (i & j & Hi & Hj & E).
    - intros z Hz. destruct (in_halves xs z Hz) as (i & m & -> & Em). destruct (Pv i m Em) as (c & -> & _). eauto.
    - rewrite <- (halves_length mid). revert Sk. apply splits_index. intros i m Em. destruct (Pv i m Em) as (c & -> & Hm). cbn. rewrite Hm. split.
      + intros Hn. destruct (o_lt m (lo X)) eqn:F; [reflexivity|]. exfalso. apply Hn. exists (lo X). split; [exact (el_lower HO X HX)|exact F].
      + intros L (v & [Hv _] & F). clear - HO L F Hv. ord HO.
    - rewrite <- (halves_length mid). revert Sl. apply splits_index. intros i m Em. destruct (Pv i m Em) as (c & -> & Hm). cbn. rewrite Hm. split.
      + intros (v & [_ Hv] & F). clear - HO F Hv. ord HO.
      + intros L. exists (hi X). split; [exact (el_upper HO X HX)|exact L].
    - rewrite E, mk_iter by lia. cbn [bind].
      destruct (index_deref_ok (@Ivl (iter_ordty (size (index_range (length xs - 1)))) i j)) as (I & EI & H1 & H3).
      + rewrite index_range_length. lia.
      + apply proper_idx. cbn. lia.
      + rewrite EI. cbn [bind]. assert (G1 : val (lo I) = Z.of_nat k) by (rewrite <- Hi; exact H1). assert (G2 : val (hi I) = Z.of_nat l) by (rewrite <- Hj; exact H3). clear H1 H3.
        destruct (at_numbers_hull HN (map Sc ys) I) as (Z & EZ & HZ).
        * rewrite map_length. lia.
        * intros a Ha. apply in_map_iff in Ha as (y & <- & Hy). exact (Hys y Hy).
        * apply Z.leb_le. change (val (lo I) <= val (hi I))%Z. lia.
        * change (0 <= val (lo I))%Z. lia.
        * rewrite map_length. change (val (hi I) < size ys)%Z. lia.
        * exists Z. do 4 (split; [assumption|]). eapply is_hull_ext; [|exact HZ]. intros v. split.
          -- intros (q & a & Hq & Ea & Hv). change (val (lo I) <= Z.of_nat q <= val (hi I))%Z in Hq. rewrite nth_error_map in Ea. destruct (nth_error ys q) as [y|] eqn:Ey; [|discriminate Ea]. injection Ea as <-. destruct Hv as [V1 V2]. cbn in V1, V2.
             exists q, y. split; [lia|]. split; [exact Ey|]. clear - HO V1 V2. ord HO.
          -- intros (q & y & Hq & Ey & Hv). exists q, (Sc y). split; [change (val (lo I) <= Z.of_nat q <= val (hi I))%Z; lia|]. rewrite nth_error_map, Ey. split; [reflexivity|]. split; cbn; clear - HO Hv; ord HO.
  Qed.
  Lemma nearest_included : exists Z, nearest dbg mid xs ys X = Ret Z /\ forall x, el X x -> exists y, nearest_scalar dbg mid xs ys x = Ret y /\ el Z y.
  Proof.
    destruct nearest_runs as (k & l & Z & Sk & Sl & Hkl & EZ & HZ). exists Z. split; [exact EZ|]. intros x [Hx1 Hx2].
    destruct (nearest_scalar_ok x) as (m & y & Sm & Ey & E). exists y. split; [exact E|]. apply HZ. exists m, y. split.
    - split; [refine (splits_mono _ _ hs k m _ Sk Sm)|refine (splits_mono _ _ hs m l _ Sm Sl)]; intros e _; [clear - HO Hx1|clear - HO Hx2]; ord HO.
    - split; [exact Ey|]. pose proof (Hys y (nth_error_In _ _ Ey)) as Oy. unfold ok in Oy. clear - HO Oy. ord HO.
  Qed.
  (** If the points halfway are distinct, every position between the extreme ones is that of an element. *)
  Lemma nearest_hull : ascending hs -> exists Z, nearest dbg mid xs ys X = Ret Z /\ is_hull (fun y => exists x, el X x /\ nearest_scalar dbg mid xs ys x = Ret y) Z.
  Proof.
    intros HA. destruct nearest_runs as (k & l & Z & Sk & Sl & Hkl & EZ & HZ). exists Z. split; [exact EZ|].
    assert (G : forall i, k <= i <= l -> exists x, el X x /\ lower_bound_at hs x i).
    { intros i Hi. destruct (Nat.eq_dec i k) as [->|Hk]; [exists (lo X); split; [exact (el_lower HO X HX)|exact Sk]|].
      destruct (Nat.eq_dec i l) as [->|Hl]; [exists (hi X); split; [exact (el_upper HO X HX)|exact Sl]|].
      destruct Sk as [Lk Sk], Sl as [Ll Sl]. destruct (nth_error hs i) as [m|] eqn:Em; [|apply nth_error_None in Em; lia].
      destruct (Sk i m Em) as [_ K]. destruct (Sl i m Em) as [K' _]. specialize (K ltac:(lia)). specialize (K' ltac:(lia)). apply not_true_is_false in K.
      assert (Om : ok m) by (apply (sorted_ok hs HSh), (nth_error_In _ _ Em)). unfold ok, proper in *. exists m. split.
      - split; clear - HO K K' Om HX; ord HO.
      - split; [lia|]. intros q e Ee. split.
        + intros L. exact (HA q i e m L Ee Em).
        + intros L. pose proof (HSh i q m e L Em Ee) as Q. apply not_true_iff_false. clear - HO Q. ord HO. }
    assert (R : forall x i, lower_bound_at hs x i -> exists y, nth_error ys i = Some y /\ nearest_scalar dbg mid xs ys x = Ret y).
    { intros x i Si. destruct (nearest_scalar_ok x) as (m & y & Sm & Ey & E). pose proof (splits_unique _ _ _ _ Si Sm) as ->. eauto. }
    assert (B : forall y, (exists x, el X x /\ nearest_scalar dbg mid xs ys x = Ret y) -> exists i y', k <= i <= l /\ nth_error ys i = Some y' /\ o_eq y' y = true).
    { intros y (x & [Hx1 Hx2] & E). destruct (nearest_scalar_ok x) as (m & y' & Sm & Ey & E'). rewrite E in E'. injection E' as <-. exists m, y. split.
      - split; [refine (splits_mono _ _ hs k m _ Sk Sm)|refine (splits_mono _ _ hs m l _ Sm Sl)]; intros e _; [clear - HO Hx1|clear - HO Hx2]; ord HO.
      - split; [exact Ey|]. pose proof (Hys y (nth_error_In _ _ Ey)) as Oy. unfold ok in Oy. clear - HO Oy. ord HO. }
    destruct HZ as (K & (v & (i & y & Hi & Ey & Ev) & L) & (w & (j & z & Hj & Ez & Ew) & U)). split; [intros u Hu; apply K, B, Hu|]. split.
    - destruct (G i Hi) as (x & Hx & Sx). destruct (R x i Sx) as (y' & Ey' & E). rewrite Ey in Ey'. injection Ey' as <-. exists y. split; [eauto|]. clear - HO Ev L. ord HO.
    - destruct (G j Hj) as (x & Hx & Sx). destruct (R x j Sx) as (y' & Ey' & E). rewrite Ez in Ey'. injection Ey' as <-. exists z. split; [eauto|]. clear - HO Ew U. ord HO.
  Qed.
End Nearest.
