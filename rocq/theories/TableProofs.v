(** Proofs about searches in a range of another value type. *)
From Coq Require Import Bool List Arith ZArith Reals Lia.
From Flocq Require Import Core BinarySingleNaN.
From Verif Require Import Outcome SetModel Spec SetProofs Num NumLaws IntervalModel IvlSpec IvlProofs IntNum IntProofs IterModel XReal FloatNum FloatProofs ValueTypes IvlWrap
  ConstrainModel CondSpec ConstrainProofs ConstrainProofs2 ConstrainProofs4 ConstrainProofs5 ConstrainProofs6 MixedModel MixedProofs MixedArithModel ConvProofs
  AlgoModel AlgoSpec AlgoProofs AlgoProofs2 AlgoProofs4 WidenSpec SearchModel SearchSpec WidenProofs FloatIntProofs TableModel TableSpec.
Import ListNotations.
Open Scope nat_scope.

(** A search in the converted range. *)
Section Map.
  Context {A B : Type} (f : A -> B).
  Lemma splits_map (q : B -> Prop) r k : splits q (map f r) k <-> splits (fun e => q (f e)) r k.
  Proof.
    unfold splits. rewrite map_length. split; intros [L S]; (split; [exact L|]); intros i v E.
    - apply (S i (f v)). now rewrite nth_error_map, E.
    - rewrite nth_error_map in E. destruct (nth_error r i) as [u|] eqn:Eu; [|discriminate]. injection E as <-. exact (S i u Eu).
  Qed.
  Lemma pp_map p r : forall fuel first len, pp_loop fuel (fun e => p (f e)) r first len = pp_loop fuel p (map f r) first len.
  Proof.
    induction fuel as [|fuel IH]; intros first len; [reflexivity|]. cbn [pp_loop]. destruct (Nat.eqb len 0); [reflexivity|].
    rewrite nth_error_map. destruct (nth_error r (first + Nat.div2 len)) as [v|]; [|reflexivity]. cbn [option_map].
    destruct (p (f v)) as [b| | | |]; try reflexivity. cbn [bind]. destruct b; apply IH.
  Qed.
  Lemma std_map p r : std_partition_point (fun e => p (f e)) r = std_partition_point p (map f r).
  Proof. unfold std_partition_point. rewrite map_map, map_length, pp_map. reflexivity. Qed.
  Lemma set_map {O : ordty} (p : B -> outcome (cond O)) r (S : nat -> Prop) :
    (exists P, partition_point_set p (map f r) = Ret P /\ is_hull (fun i : iter_ordty (size (map f r)) => exists m, S m /\ idx i = Z.of_nat m) P) ->
    exists P, partition_point_set (fun e => p (f e)) r = Ret P /\ is_hull (fun i : iter_ordty (size r) => exists m, S m /\ idx i = Z.of_nat m) P.
  Proof.
    unfold partition_point_set. rewrite (std_map (fun v => c <- p v ;; Ret (always (cset c))) r), (std_map (fun v => c <- p v ;; Ret (possibly (cset c))) r).
    rewrite map_length. exact (fun H => H).
  Qed.
  Lemma elem_map r i : elem (map f r) i = (e <- elem r i ;; Ret (f e)).
  Proof. unfold elem. destruct (i <? 0)%Z; [reflexivity|]. rewrite nth_error_map. now destruct (nth_error r (Z.to_nat i)). Qed.
  Lemma index_map r I : index_ok (map f r) I <-> index_ok r I.
  Proof. unfold index_ok. now rewrite map_length. Qed.
End Map.

Section Table.
  Context {I T : num} (c : I -> T) (HI : num_laws I) (HT : num_laws T) (C : conv_laws I T c) (dbg : bool).
  Let OI := nl_ord I HI.
  Let OT := nl_ord T HT.
  Implicit Types (r : list I) (X Z : ivl T) (t : term T).
  Lemma sorted_map r : sorted r -> sorted (map c r).
  Proof.
    intros S i j v u L Ei Ej. rewrite nth_error_map in Ei, Ej. destruct (nth_error r i) as [a|] eqn:Ea; [|discriminate]. destruct (nth_error r j) as [b|] eqn:Eb; [|discriminate].
    injection Ei as <-. injection Ej as <-. apply (cv_mono _ _ _ C). exact (S i j a b L Ea Eb).
  Qed.
  Lemma lower_table_hull t r : aproper (op_arg (operand_of t)) -> sorted r ->
    exists P, lower_bound_table c dbg r (operand_of t) = Ret P /\ is_hull (fun i : iter_ordty (size r) => exists v m, tel t v /\ table_lower_at c r v m /\ idx i = Z.of_nat m) P.
  Proof.
    intros Ht S. destruct (set_map c (lower_pred dbg (operand_of t)) r (fun m => exists v, tel t v /\ table_lower_at c r v m)) as (P & E & H).
    - destruct (lower_bound_hull OT dbg t (map c r) Ht (sorted_map r S)) as (P & E & H). exists P. split; [exact E|]. revert H. apply is_hull_ext. intros i.
      split; [intros (v & m & A & B & D)|intros (m & (v & A & B) & D)]; [exists m; split; [exists v; split; [exact A|exact (proj1 (splits_map c _ r m) B)]|exact D]|exists v, m; split; [exact A|]; split; [exact (proj2 (splits_map c _ r m) B)|exact D]].
    - exists P. split; [exact E|]. revert H. apply is_hull_ext. intros i. split; [intros (m & (v & A & B) & D); eauto|intros (v & m & A & B & D); eauto].
  Qed.
  Lemma upper_table_hull t r : aproper (op_arg (operand_of t)) -> sorted r ->
    exists P, upper_bound_table c dbg r (operand_of t) = Ret P /\ is_hull (fun i : iter_ordty (size r) => exists v m, tel t v /\ table_upper_at c r v m /\ idx i = Z.of_nat m) P.
  Proof.
    intros Ht S. destruct (set_map c (upper_pred dbg (operand_of t)) r (fun m => exists v, tel t v /\ table_upper_at c r v m)) as (P & E & H).
    - destruct (upper_bound_hull OT dbg t (map c r) Ht (sorted_map r S)) as (P & E & H). exists P. split; [exact E|]. revert H. apply is_hull_ext. intros i.
      split; [intros (v & m & A & B & D)|intros (m & (v & A & B) & D)]; [exists m; split; [exists v; split; [exact A|exact (proj1 (splits_map c _ r m) B)]|exact D]|exists v, m; split; [exact A|]; split; [exact (proj2 (splits_map c _ r m) B)|exact D]].
    - exists P. split; [exact E|]. revert H. apply is_hull_ext. intros i. split; [intros (m & (v & A & B) & D); eauto|intros (v & m & A & B & D); eauto].
  Qed.

  (** Narrower elements of the same kind: as if the elements had been converted before. *)
  Hypothesis pred_conv : forall a p : I, o_pred a = Ret p -> o_pred (c a) = Ret (c p).
  Hypothesis succ_conv : forall a p : I, o_succ a = Ret p -> o_succ (c a) = Ret (c p).
  Lemma table_eq (low high : I -> outcome (ivl T)) p X r K : (forall e, In e r -> low e = (d <- p (c e) ;; constrain dbg 0 X d)) ->
    (forall e, In e r -> high e = (d <- p (c e) ;; d <- c_not dbg d ;; constrain dbg 0 X d)) ->
    table_constrain dbg low high X r K = part_constrain dbg 0 X p (map c r) K.
  Proof.
    intros Hl Hh. unfold table_constrain, part_constrain, part_index. rewrite !map_length.
    destruct r as [|a r']; [reflexivity|]. cbn [map]. set (r := a :: r') in *. change (c a :: map c r') with (map c r).
    assert (EL : forall i, (e <- elem r i ;; low e) = (e <- elem (map c r) i ;; d <- p e ;; constrain dbg 0 X d)).
    { intros i. rewrite elem_map. destruct (elem r i) as [e| | | |] eqn:E; try reflexivity. cbn [bind]. apply Hl. unfold elem in E. destruct (i <? 0)%Z; [discriminate|].
      destruct (nth_error r (Z.to_nat i)) as [u|] eqn:Eu; [|discriminate]. injection E as <-. exact (nth_error_In _ _ Eu). }
    assert (EH : forall i, (e <- elem r i ;; high e) = (e <- elem (map c r) i ;; d <- p e ;; d <- c_not dbg d ;; constrain dbg 0 X d)).
    { intros i. rewrite elem_map. destruct (elem r i) as [e| | | |] eqn:E; try reflexivity. cbn [bind]. apply Hh. unfold elem in E. destruct (i <? 0)%Z; [discriminate|].
      destruct (nth_error r (Z.to_nat i)) as [u|] eqn:Eu; [|discriminate]. injection E as <-. exact (nth_error_In _ _ Eu). }
    match goal with |- bind ?m _ = _ => destruct m as [k| | | |]; try reflexivity end. cbn [bind]. rewrite EL. destruct (if (0 <? _)%Z then _ else _); try reflexivity. cbn [bind].
    rewrite EH. reflexivity.
  Qed.
  Lemma lower_table_eq X r K : proper X -> sorted r -> has_next r -> lower_table_constrain c dbg X r K = part_constrain dbg 0 X (lower_pred dbg (OpId 0 X)) (map c r) K.
  Proof.
    intros PX S N. apply table_eq; [|reflexivity]. intros e He. pose proof (sorted_ok r S e He) as Oe. destruct (N e He) as (s & Es).
    rewrite (widen_eq HI HT c C dbg pred_conv succ_conv RLt false X (Sc e) PX Oe); [reflexivity|]. exists s. exact Es.
  Qed.
  Lemma upper_table_eq X r K : proper X -> sorted r -> has_previous r -> upper_table_constrain c dbg X r K = part_constrain dbg 0 X (upper_pred dbg (OpId 0 X)) (map c r) K.
  Proof.
    intros PX S N. apply table_eq; [reflexivity|]. intros e He. pose proof (sorted_ok r S e He) as Oe. destruct (N e He) as (s & Es).
    rewrite (widen_eq HI HT c C dbg pred_conv succ_conv RLt true X (Sc e) PX Oe); [|exists s; exact Es].
    assert (L : legal (GRel RLt (TVar 0 X) (TVal (Sc (c e))))) by exact (mform_legal c (cv_mono _ _ _ C) RLt true X (Sc e) PX Oe).
    pose proof (by_dneg OT dbg 0 X _ L eq_refl) as D. unfold mform. cbn [conv_arg]. rewrite <- D. unfold constrain_by. cbn [build]. unfold upper_pred. cbn [operand_of].
    destruct (c_lt dbg (OpId 0 X) (OpVal (Sc (c e)))) as [d| | | |]; try reflexivity. cbn [bind]. now destruct (c_not dbg d).
  Qed.
End Table.

Section Wrap.
  Context {I T : num} {c : I -> T} (W : widens I T c) (dbg : bool).
  Implicit Types (r : list I) (X Z : ivl T) (K : arg (int_ordty 64)) (v : T).
  Lemma lower_table_sound r X K v k : index_ok r K -> sorted r -> has_next r -> el X v -> table_lower_at c r v k -> index_in K k ->
    exists Z, lower_table_constrain c dbg X r K = Ret Z /\ el Z v.
  Proof.
    intros HK S N HX Hk Hin. destruct (widens_laws I T c W) as (HI & HT & C & P & Q & D). pose proof (nl_ord T HT) as OT.
    rewrite (lower_table_eq c HI HT C dbg P Q X r K (el_proper OT X v HX) S N).
    exact (lower_part_sound OT dbg 0 X X (map c r) K v k (proj2 (index_map c r K) HK) (sorted_map c C r S) HX HX (proj2 (splits_map c _ r k) Hk) Hin).
  Qed.
  Lemma upper_table_sound r X K v k : index_ok r K -> sorted r -> has_previous r -> el X v -> table_upper_at c r v k -> index_in K k ->
    exists Z, upper_table_constrain c dbg X r K = Ret Z /\ el Z v.
  Proof.
    intros HK S N HX Hk Hin. destruct (widens_laws I T c W) as (HI & HT & C & P & Q & D). pose proof (nl_ord T HT) as OT.
    rewrite (upper_table_eq c HI HT C dbg P Q X r K (el_proper OT X v HX) S N).
    exact (upper_part_sound OT dbg 0 X X (map c r) K v k (proj2 (index_map c r K) HK) (sorted_map c C r S) HX HX (proj2 (splits_map c _ r k) Hk) Hin).
  Qed.
  Lemma low_map r n (q : T -> Prop) : (forall e, nth_error (map c r) n = Some e -> q e) <-> (forall e, nth_error r n = Some e -> q (c e)).
  Proof.
    split; intros H e E.
    - apply H. now rewrite nth_error_map, E.
    - rewrite nth_error_map in E. destruct (nth_error r n) as [u|] eqn:Eu; [|discriminate]. injection E as <-. exact (H u eq_refl).
  Qed.
  Lemma lower_table_tight r X K Z : index_ok r K -> sorted r -> has_next r -> proper X -> lower_table_constrain c dbg X r K = Ret Z ->
    forall w, el Z w <-> el X w
      /\ ((0 < val (alower K))%Z -> forall e, nth_error r (Z.to_nat (val (alower K) - 1)) = Some e -> rel_holds (relaxed T RLt) (c e) w = true)
      /\ ((val (aupper K) < size r)%Z -> forall e, nth_error r (Z.to_nat (val (aupper K))) = Some e -> o_le w (c e) = true).
  Proof.
    intros HK S N PX H w. destruct (widens_laws I T c W) as (HI & HT & C & P & Q & D). pose proof (nl_ord T HT) as OT.
    rewrite (lower_table_eq c HI HT C dbg P Q X r K PX S N) in H.
    rewrite (lower_part_tight OT dbg 0 X (map c r) K Z (proj2 (index_map c r K) HK) (sorted_map c C r S) PX H w). rewrite map_length, !low_map.
    unfold relaxed. destruct (o_disc T); reflexivity.
  Qed.
  Lemma upper_table_tight r X K Z : index_ok r K -> sorted r -> has_previous r -> proper X -> upper_table_constrain c dbg X r K = Ret Z ->
    forall w, el Z w <-> el X w
      /\ ((0 < val (alower K))%Z -> forall e, nth_error r (Z.to_nat (val (alower K) - 1)) = Some e -> o_le (c e) w = true)
      /\ ((val (aupper K) < size r)%Z -> forall e, nth_error r (Z.to_nat (val (aupper K))) = Some e -> rel_holds (relaxed T RLt) w (c e) = true).
  Proof.
    intros HK S N PX H w. destruct (widens_laws I T c W) as (HI & HT & C & P & Q & D). pose proof (nl_ord T HT) as OT.
    rewrite (upper_table_eq c HI HT C dbg P Q X r K PX S N) in H.
    rewrite (upper_part_tight OT dbg 0 X (map c r) K Z (proj2 (index_map c r K) HK) (sorted_map c C r S) PX H w). rewrite map_length, !low_map.
    unfold relaxed. destruct (o_disc T); reflexivity.
  Qed.
  Lemma lower_table_exact r X K Z : o_disc T = true -> index_ok r K -> sorted r -> has_next r -> proper X -> lower_table_constrain c dbg X r K = Ret Z ->
    forall w, el Z w <-> el X w /\ exists k, table_lower_at c r w k /\ index_in K k.
  Proof.
    intros DT HK S N PX H w. destruct (widens_laws I T c W) as (HI & HT & C & P & Q & D). pose proof (nl_ord T HT) as OT.
    rewrite (lower_table_eq c HI HT C dbg P Q X r K PX S N) in H.
    rewrite (lower_part_exact OT dbg 0 X (map c r) K Z DT (proj2 (index_map c r K) HK) (sorted_map c C r S) PX H w).
    split; intros (A & k & B & E); (split; [exact A|exists k; split; [|exact E]]); now apply (splits_map c (fun e => o_lt e w = true) r k).
  Qed.
  Lemma upper_table_exact r X K Z : o_disc T = true -> index_ok r K -> sorted r -> has_previous r -> proper X -> upper_table_constrain c dbg X r K = Ret Z ->
    forall w, el Z w <-> el X w /\ exists k, table_upper_at c r w k /\ index_in K k.
  Proof.
    intros DT HK S N PX H w. destruct (widens_laws I T c W) as (HI & HT & C & P & Q & D). pose proof (nl_ord T HT) as OT.
    rewrite (upper_table_eq c HI HT C dbg P Q X r K PX S N) in H.
    rewrite (upper_part_exact OT dbg 0 X (map c r) K Z DT (proj2 (index_map c r K) HK) (sorted_map c C r S) PX H w).
    split; intros (A & k & B & E); (split; [exact A|exists k; split; [|exact E]]); now apply (splits_map c (fun e => o_lt w e = false) r k).
  Qed.
End Wrap.

(** A table of ints searched for a double interval: xs = {1, 2, 4, 8}, x = [1.25, 2.5]. *)
Definition xs1248 : list int32 := [i32 1; i32 2; i32 4; i32 8].
Lemma xs1248_sorted : sorted xs1248.
Proof.
  intros i j v w L Ei Ej.
  do 4 (destruct j as [|j]; [do 4 (destruct i as [|i]; [try lia; cbn in Ei, Ej; injection Ei as <-; injection Ej as <-; reflexivity|]); lia|]). destruct j; discriminate Ej.
Qed.
Definition X_125_25 : ivl float64 := Ivl (f64 5 (-2)) (f64 5 (-1)).
Definition X_125_15 : ivl float64 := Ivl (f64 5 (-2)) (f64 3 (-1)).
Definition I12 : ivl (int_ordty 64) := Ivl (i64 1) (i64 2).
Lemma at_125 : table_lower_at (O := float64) (I := int32) int_to_double xs1248 (f64 5 (-2)) 1.
Proof.
  split; [cbn; lia|]. intros i v E. assert (B : forall b : bool, {b = true} + {b = false}) by (intros []; auto).
  destruct i as [|i]; [injection E as <-; split; [intros _; vm_compute; reflexivity|lia]|]. split; [lia|intros _].
  destruct i as [|[|[|i]]]; [| | |destruct i; discriminate E]; injection E as <-; match goal with |- ~ ?b = true => destruct (B b) as [K|K]; [vm_compute in K; discriminate K|now rewrite K] end.
Qed.
(** The value 1.25 of x has position 1, but constrain(x, preds[{1, 2}]) drops it; for x = [1.25, 1.5] the program fails. *)
Lemma table_drops : exists (X : ivl float64) (K : ivl (int_ordty 64)) (v : float64) Z, index_ok xs1248 (Iv K) /\ sorted xs1248 /\ el X v
  /\ table_lower_at (O := float64) (I := int32) int_to_double xs1248 v 1 /\ index_in (Iv K) 1
  /\ lower_table_constrain (O := float64) (I := int32) int_to_double true X xs1248 (Iv K) = Ret Z /\ ~ el Z v.
Proof.
  exists X_125_25, I12, (f64 5 (-2)). destruct (ret_witness (lower_table_constrain (O := float64) (I := int32) int_to_double true X_125_25 xs1248 (Iv I12)) (fun Z => negb (o_le (lo Z) (f64 5 (-2) : float64)))) as (Z & E & H);
    [vm_compute; reflexivity|]. exists Z.
  split; [split; [reflexivity|split; vm_compute; discriminate]|]. split; [exact xs1248_sorted|]. split; [split; vm_compute; reflexivity|]. split; [exact at_125|]. split; [split; vm_compute; discriminate|].
  split; [exact E|]. intros [L _]. rewrite L in H. discriminate.
Qed.
Lemma table_fails : exists (X : ivl float64) (K : int_ordty 64) (v : float64), index_ok xs1248 (Sc K) /\ sorted xs1248 /\ el X v
  /\ table_lower_at (O := float64) (I := int32) int_to_double xs1248 v 1 /\ index_in (Sc K) 1
  /\ lower_table_constrain (O := float64) (I := int32) int_to_double true X xs1248 (Sc K) = FailFast.
Proof.
  exists X_125_15, (i64 1), (f64 5 (-2)). split; [split; [reflexivity|split; vm_compute; discriminate]|]. split; [exact xs1248_sorted|]. split; [split; vm_compute; reflexivity|]. split; [exact at_125|].
  split; [split; vm_compute; discriminate|]. apply failfast_witness. vm_compute. reflexivity.
Qed.
