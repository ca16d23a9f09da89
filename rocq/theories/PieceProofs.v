(** Piecewise programs (C75). *)
From Coq Require Import Bool List Arith ZArith Lia.
From Verif Require Import Outcome SetModel Spec Num NumLaws IntervalModel ExampleProofs IvlSpec IvlProofs ArithProofs IntNum IntProofs IterModel IterProofs ValueTypes
  ConstrainModel CondSpec ConstrainProofs4 ConstrainProofs5 AlgoModel AlgoSpec AlgoProofs AlgoProofs2 AlgoProofs4 MathModel LangModel LangSpec LangProofs LangProofs2 InterpProofs InterpProofs3 InterpProofs5 PieceModel.
Import ListNotations.
Open Scope nat_scope.

(** The position of [v] in the sorted range. *)
Definition pos_at {O : ordty} (s : search) (xs : list O) (v : O) (k : nat) : Prop :=
  match s with SLower => lower_bound_at xs v k | SUpper => upper_bound_at xs v k end.

Lemma el_index (i : ivl (int_ordty 64)) j : el i j <-> (val (lo i) <= val j <= val (hi i))%Z.
Proof. unfold el. cbn [o_le int_ordty]. now rewrite !Z.leb_le. Qed.

Section Piece.
  Context {N : num} (HN : num_laws N) (dbg : bool) (s : search) (xs : list N).
  Let HO := nl_ord N HN.
  Notation index := (int_ordty 64).
  Hypotheses (Hsort : sorted xs) (Hmax : (Z.of_nat (length xs) <= int_max 64)%Z).

  Lemma pos_exists v : ok v -> exists k, pos_at s xs v k.
  Proof. intros Hv. destruct s; [apply (lower_exists HO xs v Hsort)|apply (upper_exists HO xs v Hsort Hv)]. Qed.
  Lemma pos_mono a b m m' : o_le a b = true -> pos_at s xs a m -> pos_at s xs b m' -> m <= m'.
  Proof.
    intros L Sa Sb. destruct s; refine (splits_mono _ _ xs m m' _ Sa Sb); intros e He; [clear - HO L; ord HO|].
    pose proof (sorted_ok xs Hsort e He) as Oe. clear - HO L Oe. intros K. destruct (o_lt b e) eqn:E; [|reflexivity]. ord HO.
  Qed.
  Lemma pos_unique v m m' : pos_at s xs v m -> pos_at s xs v m' -> m = m'.
  Proof. destruct s; apply splits_unique. Qed.
  Lemma pos_le v k : pos_at s xs v k -> k <= length xs. Proof. destruct s; intros [H _]; exact H. Qed.

  Lemma index_positions X : proper X -> exists k l i, pos_at s xs (lo X) k /\ pos_at s xs (hi X) l /\ k <= l
    /\ piece_index dbg s xs X = Ret i /\ val (lo i) = Z.of_nat k /\ val (hi i) = Z.of_nat l.
  Proof.
    intros HX. destruct (proper_oks HO X HX) as [Ol Oh]. destruct (pos_exists (lo X) Ol) as (k & Sk). destruct (pos_exists (hi X) Oh) as (l & Sl).
    assert (HP : exists P, (match s with SLower => lower_bound dbg xs (OpId 0 X) | SUpper => upper_bound dbg xs (OpId 0 X) end) = Ret P
      /\ is_hull (fun i : iter_ordty (Z.of_nat (length xs)) => exists v m, tel (TVar 0 X) v /\ pos_at s xs v m /\ idx i = Z.of_nat m) P).
    { destruct s; [exact (lower_bound_hull HO dbg (TVar 0 X) xs HX Hsort)|exact (upper_bound_hull HO dbg (TVar 0 X) xs HX Hsort)]. }
    destruct HP as (P & EP & K & (p & (v & m & [V1 V2] & Sm & Em) & Lp) & (q & (w & m' & [W1 W2] & Sm' & Em') & Lq)). cbn in V1, V2, W1, W2.
    assert (B : forall u r, el X u -> pos_at s xs u r -> (idx (lo P) <= Z.of_nat r <= idx (hi P))%Z).
    { intros u r Hu Su. pose proof (pos_le _ _ Su). destruct (proj2 (iter_of_def (n := Z.of_nat (length xs)) (Z.of_nat r))) as (i & Ei); [lia|]. apply iter_of_ret in Ei. rewrite <- Ei.
      apply el_idx. apply K. exists u, r. auto. }
    pose proof (B (lo X) k (el_lower HO X HX) Sk) as B1. pose proof (B (hi X) l (el_upper HO X HX) Sl) as B2. pose proof (pos_mono _ _ _ _ V1 Sk Sm) as M1. pose proof (pos_mono _ _ _ _ W2 Sm' Sl) as M2.
    cbn [o_eq iter_ordty] in Lp, Lq. apply Z.eqb_eq in Lp, Lq. pose proof (pos_le _ _ Sk). pose proof (pos_le _ _ Sl). pose proof (pos_mono _ _ _ _ HX Sk Sl).
    unfold piece_index. rewrite EP. cbn [bind]. destruct (proj2 (iter_of_def (n := Z.of_nat (length xs)) 0)) as (b & Eb); [lia|]. rewrite Eb. cbn [bind]. apply iter_of_ret in Eb.
    unfold it_diff. cbn [aassigned alower aupper]. pose proof int_min_neg as Hneg.
    assert (AP : assigned P = true) by (unfold assigned; cbn [o_lt iter_ordty]; rewrite negb_true_iff; apply Z.ltb_ge; lia). rewrite AP. rewrite debug_true by reflexivity. cbn [bind].
    unfold iter_diff. rewrite Eb, !Z.sub_0_r. replace (idx (lo P)) with (Z.of_nat k) by lia. replace (idx (hi P)) with (Z.of_nat l) by lia.
    destruct (proj2 (int_of_def 64 (Z.of_nat k))) as (kl & Ekl); [lia|]. destruct (proj2 (int_of_def 64 (Z.of_nat l))) as (ku & Eku); [lia|]. rewrite Ekl, Eku. cbn [bind].
    apply int_of_ret in Ekl, Eku. rewrite mk_index by lia. exists k, l, (@Ivl index kl ku). cbn [lo hi]. auto 10.
  Qed.
  Lemma constrain_sound X v k j : el X v -> pos_at s xs v k -> val j = Z.of_nat k -> exists XC, piece_constrain dbg s xs X j = Ret XC /\ el XC v.
  Proof.
    intros Hv Sk Ej. pose proof (pos_le _ _ Sk). unfold piece_constrain.
    assert (I : index_ok xs (Sc j : arg index)) by (split; [apply Z.leb_refl|cbn [alower aupper]; lia]).
    assert (J : index_in (Sc j : arg index) k) by (unfold index_in; cbn [alower aupper]; lia).
    destruct s; [exact (lower_part_sound HO dbg 0 X X xs (Sc j) v k I Hsort Hv Hv Sk J)|exact (upper_part_sound HO dbg 0 X X xs (Sc j) v k I Hsort Hv Hv Sk J)].
  Qed.

  (** Without repetitions, every index between two positions is a position. *)
  Lemma every_position X k l j : ascending xs -> proper X -> pos_at s xs (lo X) k -> pos_at s xs (hi X) l -> k <= j <= l -> exists v, el X v /\ pos_at s xs v j.
  Proof.
    intros Asc HX Sk Sl Hj. pose proof (pos_le _ _ Sl).
    destruct (Nat.eq_dec j k) as [->|Nk]; [exists (lo X); split; [exact (el_lower HO X HX)|exact Sk]|].
    destruct (Nat.eq_dec j l) as [->|Nl]; [exists (hi X); split; [exact (el_upper HO X HX)|exact Sl]|].
    assert (Lt : forall i e, nth_error xs i = Some e -> ok e) by (intros i e E; exact (Hsort i i e e (le_n i) E E)).
    destruct (proper_oks HO X HX) as [Ol Oh]. destruct (nth_some xs (j - 1)) as (a & Ea); [lia|]. destruct (nth_some xs j) as (b & Eb); [lia|].
    pose proof (Lt _ _ Ea) as Oa. pose proof (Lt _ _ Eb) as Ob. pose proof (Asc (j - 1) j a b ltac:(lia) Ea Eb) as Lab.
    destruct s; cbn [pos_at] in *; unfold lower_bound_at, upper_bound_at in *; destruct Sk as [_ Sk], Sl as [_ Sl].
    - exists b. pose proof (proj2 (Sk _ _ Ea) ltac:(lia)) as P1. pose proof (proj1 (Sl _ _ Eb) ltac:(lia)) as P2. cbn beta in P1, P2. apply not_true_is_false in P1. split.
      + split; clear - HO P1 P2 Ol Oh Oa Ob Lab; unfold ok in *; ord HO.
      + split; [lia|]. intros i e Ei. split; intros L.
        * exact (Asc i j e b L Ei Eb).
        * pose proof (Hsort j i b e L Eb Ei) as Q. clear - HO Q. ord HO.
    - exists a. pose proof (proj2 (Sk _ _ Ea) ltac:(lia)) as P1. pose proof (proj1 (Sl _ _ Ea) ltac:(lia)) as P2. cbn beta in P1, P2. apply not_false_is_true in P1. split.
      + split; clear - HO P1 P2 Ol Oh Oa Ob Lab; unfold ok in *; ord HO.
      + split; [lia|]. intros i e Ei. split; intros L.
        * pose proof (Hsort i (j - 1) e a ltac:(lia) Ei Ea) as Q. clear - HO Q. destruct (o_lt a e) eqn:E; [|reflexivity]. ord HO.
        * pose proof (Hsort j i b e L Eb Ei) as Q. clear - HO Q Lab. intros F. ord HO.
  Qed.
End Piece.

Section Run.
  Context {N : num} {M : option (math N)} (HP : prog_type N M) (dbg : bool) (s : search) (xs : list N) (body : Z -> prog N).
  Let HN := prog_laws N M HP.
  Let HO := nl_ord N HN.
  Notation index := (int_ordty 64).
  Hypotheses (Hsort : sorted xs) (Hmax : (Z.of_nat (length xs) <= int_max 64)%Z).
  Variables (X : ivl N) (Ys : list (ivl N)) (x : N) (ys : list N).
  Hypotheses (Hx : el X x) (Hy : Forall2 el Ys ys).
  Notation piece_of j := (0 <= j <= Z.of_nat (length xs))%Z.
  Hypotheses (Wf : forall j, piece_of j -> well_formed (repeat true (S (length Ys))) [] (body j) = true) (Fu : forall j, piece_of j -> pfuns (monotone M) (body j)).
  Notation clean_at j := (forall XC, piece_constrain dbg s xs X j = Ret XC -> pclean M dbg (map Iv (XC :: Ys)) [] (body (val j))).

  Lemma loop_grows l : (forall j, In j l -> clean_at j) -> forall R Z, oks R -> piece_loop M dbg s xs body X Ys R l = Ret Z -> oks Z /\ subset R Z.
  Proof.
    induction l as [|j l IH]; intros Cl R Z HR E; cbn [piece_loop] in E.
    - injection E as <-. split; [exact HR|]. intros v Hv. exact Hv.
    - apply bind_inv in E as (XC & EX & E). apply bind_inv in E as (R1 & E1 & E). destruct (grow HP dbg _ _ _ _ _ (Cl j (or_introl eq_refl) XC EX) HR E1) as [HR1 S1].
      destruct (IH ltac:(intros j' Hj; apply Cl; now right) R1 Z HR1 E) as [HZ S2]. split; [exact HZ|]. intros v Hv. apply S2, S1, Hv.
  Qed.
  Lemma loop_runs k l : pos_at s xs x k -> (forall j, In j l -> clean_at j) -> forall R Z, (exists j, In j l /\ val j = Z.of_nat k) -> oks R -> piece_loop M dbg s xs body X Ys R l = Ret Z ->
    exists o, srun M dbg (x :: ys) [] (body (Z.of_nat k)) None = Ret o /\ (forall v, o = Some v -> el Z v) /\ (complete (body (Z.of_nat k)) = true -> o <> None).
  Proof.
    intros Sk. assert (Pk : piece_of (Z.of_nat k)) by (pose proof (pos_le s xs _ _ Sk); lia). induction l as [|j l IH]; intros Cl R Z (j' & Hj & Ej) HR E; [destruct Hj|destruct Hj as [Hj|Hj]].
    - subst j'. cbn [piece_loop] in E. apply bind_inv in E as (XC & EX & E). apply bind_inv in E as (R1 & E1 & E).
      destruct (constrain_sound HN dbg s xs Hsort X x k j Hx Sk Ej) as (XC' & EX' & Hv). rewrite EX in EX'. injection EX' as <-.
      assert (Hs : Forall2 stands (map Iv (XC :: Ys)) (x :: ys)) by (apply (inputs_stand (XC :: Ys) (x :: ys)); constructor; assumption).
      assert (Pj : piece_of (val j)) by lia. pose proof (Wf (val j) Pj) as W. change (repeat true (S (length Ys))) with (repeat true (length (XC :: Ys))) in W. rewrite <- inputs_kind in W. rewrite <- Ej.
      destruct (run_ok HP dbg (body (val j)) (map Iv (XC :: Ys)) (x :: ys) [] [] R None R1 Hs (Forall2_nil _) W (Cl j (or_introl eq_refl) XC EX) (Fu (val j) Pj) HR ltac:(intros v Hn; discriminate Hn) E1) as (o & Eo & Ho & Hc).
      exists o. split; [exact Eo|]. split; [|intros C; apply Hc; now left]. intros v Ev.
      destruct (grow HP dbg _ _ _ _ _ (Cl j (or_introl eq_refl) XC EX) HR E1) as [HR1 _]. apply (loop_grows l ltac:(intros j' Hj; apply Cl; now right) R1 Z HR1 E). exact (Ho v Ev).
    - cbn [piece_loop] in E. apply bind_inv in E as (XC & EX & E). apply bind_inv in E as (R1 & E1 & E).
      destruct (grow HP dbg _ _ _ _ _ (Cl j (or_introl eq_refl) XC EX) HR E1) as [HR1 _]. apply (IH ltac:(intros i' Hi; apply Cl; now right) R1 Z); eauto.
  Qed.
  (** The run for a number is the body of its position. *)
  Lemma scalar_piece_run m : pos_at s xs x m -> exists j : index, piece_scalar M dbg s xs body x ys = srun M dbg (x :: ys) [] (body (val j)) None /\ val j = Z.of_nat m.
  Proof.
    intros Sm. pose proof (pos_le s xs _ _ Sm) as Lm. pose proof int_min_neg as Hneg.
    assert (Ep : exists p, (match s with SLower => lower_bound_scalar xs x | SUpper => upper_bound_scalar xs x end) = Ret p /\ idx p = Z.of_nat m).
    { destruct s; [exact (lower_scalar xs x m Sm)|exact (upper_scalar xs x m Sm)]. }
    destruct Ep as (p & Ep & Ip). unfold piece_scalar. rewrite Ep. cbn [bind]. destruct (proj2 (iter_of_def (n := Z.of_nat (length xs)) 0)) as (b & Eb); [lia|]. rewrite Eb. cbn [bind]. apply iter_of_ret in Eb.
    unfold iter_diff. rewrite Eb, Z.sub_0_r, Ip. destruct (proj2 (int_of_def 64 (Z.of_nat m))) as (j & Ej); [lia|]. rewrite Ej. cbn [bind]. apply int_of_ret in Ej. exists j. split; [|exact Ej].
    assert (I : index_ok xs (Sc j : arg index)) by (split; [apply Z.leb_refl|cbn [alower aupper]; lia]).
    assert (J : index_in (Sc j : arg index) m) by (unfold index_in; cbn [alower aupper]; lia).
    assert (Ec : part_constrain_scalar dbg x (match s with SLower => lower_pred_scalar x | SUpper => upper_pred_scalar x end) xs (Sc j) = Ret x).
    { destruct s; [exact (proj1 (scalar_lower_part dbg xs x (Sc j) m I Sm) J)|exact (proj1 (scalar_upper_part dbg xs x (Sc j) m I Sm) J)]. }
    exact (f_equal (fun o => bind o (fun xc => srun M dbg (xc :: ys) [] (body (val j)) None)) Ec).
  Qed.
  Lemma scalar_piece m : pos_at s xs x m -> piece_scalar M dbg s xs body x ys = srun M dbg (x :: ys) [] (body (Z.of_nat m)) None.
  Proof. intros Sm. destruct (scalar_piece_run m Sm) as (j & -> & ->). reflexivity. Qed.
  Lemma piece_included R : (forall i j, piece_index dbg s xs X = Ret i -> el i j -> clean_at j) -> piece M dbg s xs body X Ys = Ret R ->
    exists o, piece_scalar M dbg s xs body x ys = Ret o /\ (forall v, o = Some v -> el R v) /\ ((forall j, piece_of j -> complete (body j) = true) -> o <> None).
  Proof.
    intros Cl E. assert (HX : proper X) by exact (el_proper HO X x Hx). assert (Ox : ok x) by exact (proj1 (ol_ok _ HO _ _ (proj2 Hx))).
    destruct (index_positions HN dbg s xs Hsort Hmax X HX) as (k & l & i & Sk & Sl & Hkl & Ei & Vl & Vh).
    unfold piece in E. rewrite Ei in E. cbn [bind] in E. pose proof (pos_le s xs _ _ Sl) as Ll.
    destruct (enumerate_index i (S (S (length xs)))) as (li & El & Hl); [lia|lia|]. rewrite El in E. cbn [bind] in E.
    destruct (pos_exists HN s xs Hsort x Ox) as (m & Sm). pose proof (pos_mono HN s xs Hsort _ _ _ _ (proj1 Hx) Sk Sm) as B1. pose proof (pos_mono HN s xs Hsort _ _ _ _ (proj2 Hx) Sm Sl) as B2.
    pose proof int_min_neg as Hneg. pose proof (pos_le s xs _ _ Sm) as Lm. destruct (proj2 (int_of_def 64 (Z.of_nat m))) as (j & Ej); [lia|]. apply int_of_ret in Ej.
    destruct (loop_runs m li Sm ltac:(intros j' Hj; apply (Cl i j' Ei), el_index, Hl, Hj) ivl_default R) as (o & Eo & Ho & Hc); [exists j; split; [apply Hl; lia|exact Ej]|exact (oks_default HP)|exact E|].
    exists o. split; [|split; [exact Ho|intros C; apply Hc, C; lia]]. destruct (scalar_piece_run m Sm) as (j' & Ej' & Vj). rewrite Ej', Vj. exact Eo.
  Qed.
End Run.

Section Returns.
  Context {N : num} (HN : num_laws N) (M : option (math N)) (dbg : bool) (s : search) (xs : list N) (body : Z -> prog N) (X : ivl N) (Ys : list (ivl N)).
  Let HO := nl_ord N HN.
  Notation index := (int_ordty 64).
  (** The program returns unless one of the bodies, run for a value of its position, does not. *)
  Lemma loop_returns l : (forall j, In j l -> exists v k, el X v /\ pos_at s xs v k /\ val j = Z.of_nat k) -> sorted xs -> forall R,
    (exists Z, piece_loop M dbg s xs body X Ys R l = Ret Z)
    \/ exists (j : index) XC r, In j l /\ piece_constrain dbg s xs X j = Ret XC /\ forall Z, LangModel.irun M dbg (map Iv (XC :: Ys)) [] (body (val j)) r <> Ret Z.
  Proof.
    intros Hl Hs. induction l as [|j l IH]; intros R; [left; exists R; reflexivity|].
    destruct (Hl j (or_introl eq_refl)) as (v & k & Hv & Sk & Ej). destruct (constrain_sound HN dbg s xs Hs X v k j Hv Sk Ej) as (XC & EX & _).
    cbn [piece_loop]. rewrite EX. cbn [bind]. destruct (LangModel.irun M dbg (map Iv (XC :: Ys)) [] (body (val j)) R) as [R1| | | |] eqn:E1;
      try (right; exists j, XC, R; split; [now left|]; split; [exact EX|]; intros Z; rewrite E1; discriminate).
    cbn [bind]. destruct (IH ltac:(intros j' Hj; apply Hl; now right) R1) as [H|(j' & XC' & r & Hj & H)]; [left; exact H|]. right. exists j', XC', r. split; [now right|exact H].
  Qed.
  Lemma piece_returns : ascending xs -> sorted xs -> (Z.of_nat (length xs) <= int_max 64)%Z -> proper X ->
    (exists R, piece M dbg s xs body X Ys = Ret R)
    \/ exists (j : index) v k XC r, el X v /\ pos_at s xs v k /\ val j = Z.of_nat k /\ piece_constrain dbg s xs X j = Ret XC /\ el XC v
         /\ forall Z, LangModel.irun M dbg (map Iv (XC :: Ys)) [] (body (val j)) r <> Ret Z.
  Proof.
    intros Asc Hs Hmax HX. destruct (index_positions HN dbg s xs Hs Hmax X HX) as (k & l & i & Sk & Sl & Hkl & Ei & Vl & Vh). pose proof (pos_le s xs _ _ Sl) as Ll.
    unfold piece. rewrite Ei. cbn [bind]. destruct (enumerate_index i (S (S (length xs)))) as (li & El & Hl); [lia|lia|]. rewrite El. cbn [bind].
    assert (P : forall j, In j li -> exists v m, el X v /\ pos_at s xs v m /\ val j = Z.of_nat m).
    { intros j Hj. apply Hl in Hj. destruct (every_position HN s xs Hs X k l (Z.to_nat (val j)) Asc HX Sk Sl ltac:(lia)) as (v & Hv & Sv). exists v, (Z.to_nat (val j)). repeat split; try assumption; try apply Hv. lia. }
    destruct (loop_returns li P Hs ivl_default) as [H|(j & XC & r & Hj & EX & Hn)]; [left; exact H|right].
    destruct (P j Hj) as (v & m & Hv & Sv & Ej). destruct (constrain_sound HN dbg s xs Hs X v m j Hv Sv Ej) as (XC' & EX' & Hv'). rewrite EX in EX'. injection EX' as <-.
    exists j, v, m, XC, r. auto 10.
  Qed.
End Returns.

Section Wrap.
  Context {N : num} (HN : num_laws N) (dbg : bool) (s : search) (xs : list N).
  Let HO := nl_ord N HN.
  Notation index := (int_ordty 64).
  Lemma piece_total M body X Ys : sorted xs -> ascending xs -> (Z.of_nat (length xs) <= int_max 64)%Z -> proper X ->
    (forall (j : index) XC r v, piece_constrain dbg s xs X j = Ret XC -> el XC v -> el X v -> pos_at s xs v (Z.to_nat (val j)) ->
      exists Z, LangModel.irun M dbg (map Iv (XC :: Ys)) [] (body (val j)) r = Ret Z) ->
    exists R, piece M dbg s xs body X Ys = Ret R.
  Proof.
    intros Hs Asc Hm HX H. destruct (piece_returns HN M dbg s xs body X Ys Asc Hs Hm HX) as [K|(j & v & k & XC & r & Hv & Sv & Ej & EX & Hc & K)]; [exact K|].
    exfalso. destruct (H j XC r v EX Hc Hv) as (Z & EZ); [rewrite Ej, Nat2Z.id; exact Sv|]. exact (K Z EZ).
  Qed.
  (** The indices are the positions of the elements. *)
  Lemma piece_indices X : sorted xs -> ascending xs -> (Z.of_nat (length xs) <= int_max 64)%Z -> proper X ->
    exists i, piece_index dbg s xs X = Ret i /\ forall j, el i j <-> exists v k, el X v /\ pos_at s xs v k /\ val j = Z.of_nat k.
  Proof.
    intros Hs Asc Hm HX. destruct (index_positions HN dbg s xs Hs Hm X HX) as (k & l & i & Sk & Sl & Hkl & Ei & Vl & Vh). exists i. split; [exact Ei|].
    intros j. rewrite el_index, Vl, Vh. split.
    - intros Hj. destruct (every_position HN s xs Hs X k l (Z.to_nat (val j)) Asc HX Sk Sl ltac:(lia)) as (v & Hv & Sv). exists v, (Z.to_nat (val j)). split; [exact Hv|]. split; [exact Sv|lia].
    - intros (v & m & Hv & Sm & ->). pose proof (pos_mono HN s xs Hs _ _ _ _ (proj1 Hv) Sk Sm). pose proof (pos_mono HN s xs Hs _ _ _ _ (proj2 Hv) Sm Sl). lia.
  Qed.
End Wrap.

(** A repeated entry. *)
Definition copy_x (j : Z) : prog int32 := PAssign (EVar 0).
Definition is_failfast {A} (m : outcome A) : bool := match m with FailFast => true | _ => false end.
Lemma failfast_witness {A} (m : outcome A) : is_failfast m = true -> m = FailFast.
Proof. destruct m; cbn; intros; congruence. Qed.
Lemma repeated_sorted : sorted [i32 1; i32 1].
Proof.
  intros i j v w _ Ei Ej. assert (K : forall l u, nth_error [i32 1; i32 1] l = Some u -> u = i32 1).
  { intros [|[|l]] u E; [injection E as <-; reflexivity|injection E as <-; reflexivity|destruct l; discriminate E]. }
  rewrite (K i v Ei), (K j w Ej). vm_compute. reflexivity.
Qed.
Lemma repeated_fails : exists (xs : list int32) X, sorted xs /\ proper X
  /\ (forall dbg s, piece None dbg s xs copy_x X [] = FailFast)
  /\ (forall dbg s x, el X x -> exists v, piece_scalar None dbg s xs copy_x x [] = Ret (Some v)).
Proof.
  exists [i32 1; i32 1], (Ivl (i32 0) (i32 2)). split; [exact repeated_sorted|]. split; [vm_compute; reflexivity|]. split.
  - intros dbg s. apply failfast_witness. destruct dbg, s; vm_compute; reflexivity.
  - intros dbg s x Hx. exists x. assert (Ox : ok x) by exact (proj1 (ol_ok _ (nl_ord _ (value_type_laws _ vt_int32)) _ _ (proj2 Hx))).
    destruct (pos_exists (value_type_laws _ vt_int32) s _ repeated_sorted x Ox) as (k & Sk).
    destruct (scalar_piece_run (M := None) dbg s [i32 1; i32 1] copy_x ltac:(vm_compute; discriminate) x [] k Sk) as (j & -> & _). reflexivity.
Qed.
