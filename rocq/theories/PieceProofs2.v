(** The result of a piecewise program is the hull of the results of its pieces (C75). *)
From Coq Require Import Bool List Arith ZArith Lia.
From Verif Require Import Outcome SetModel Spec Num NumLaws IntervalModel ExampleProofs IvlSpec IvlProofs ArithProofs IntNum IntProofs IterModel IterProofs ValueTypes
  ConstrainModel CondSpec ConstrainProofs4 ConstrainProofs5 AlgoModel AlgoSpec AlgoProofs MathModel LangModel LangSpec LangProofs LangProofs2 InterpProofs5 PieceModel PieceProofs.
Import ListNotations.
Open Scope nat_scope.

(** Everything assigned to a result. *)
Definition joins {O : ordty} (l : list (ivl O)) (R : ivl O) : ivl O := fold_left (fun R A => assign_bounds R (lo A) (hi A)) l R.

Section Joins.
  Context {N : num} (HN : num_laws N).
  Let HO := nl_ord N HN.
  Implicit Types (l : list (ivl N)) (R A : ivl N).
  Lemma joins_app l l' R : joins (l ++ l') R = joins l' (joins l R). Proof. apply fold_left_app. Qed.
  Lemma assign_joins R A : proper A -> free_assign_partial R A = Ret (joins [A] R).
  Proof. intros H. unfold free_assign_partial, iassign. rewrite (proper_assigned HO A H). reflexivity. Qed.
  Lemma join_lo l : Forall proper l -> forall R, ok (lo R) ->
    ok (lo (joins l R)) /\ o_le (lo (joins l R)) (lo R) = true /\ (forall A, In A l -> o_le (lo (joins l R)) (lo A) = true) /\ (lo (joins l R) = lo R \/ exists A, In A l /\ lo (joins l R) = lo A).
  Proof.
    induction 1 as [|A l HA Hl IH]; intros R HR.
    - cbn. split; [exact HR|]. split; [exact HR|]. split; [intros A []|]. now left.
    - destruct (proper_oks HO A HA) as [OA _]. change (joins (A :: l) R) with (joins l (assign_bounds R (lo A) (hi A))). set (R1 := assign_bounds R (lo A) (hi A)).
      assert (O1 : ok (lo R1)) by (cbn; apply (omin_ok); assumption). assert (L1 : o_le (lo R1) (lo R) = true /\ o_le (lo R1) (lo A) = true).
      { unfold R1, assign_bounds; cbn [lo]. unfold omin, ok in *. clear - HO HR OA. destruct (o_lt (lo A) (lo R)) eqn:E; split; ord HO. }
      destruct (IH R1 O1) as (I1 & I2 & I3 & I4). destruct L1 as [La Lb]. split; [exact I1|]. split; [|split].
      + clear - HO I2 La. ord HO.
      + intros B [<-|HB]; [|exact (I3 B HB)]. clear - HO I2 Lb. ord HO.
      + destruct I4 as [E|(B & HB & E)]; [|right; exists B; split; [now right|exact E]]. rewrite E. unfold R1, assign_bounds; cbn [lo]. unfold omin.
        destruct (o_lt (lo A) (lo R)); [right; exists A; split; [now left|reflexivity]|now left].
  Qed.
  Lemma join_hi l : Forall proper l -> forall R, ok (hi R) ->
    ok (hi (joins l R)) /\ o_le (hi R) (hi (joins l R)) = true /\ (forall A, In A l -> o_le (hi A) (hi (joins l R)) = true) /\ (hi (joins l R) = hi R \/ exists A, In A l /\ hi (joins l R) = hi A).
  Proof.
    induction 1 as [|A l HA Hl IH]; intros R HR.
    - cbn. split; [exact HR|]. split; [exact HR|]. split; [intros A []|]. now left.
    - destruct (proper_oks HO A HA) as [_ OA]. change (joins (A :: l) R) with (joins l (assign_bounds R (lo A) (hi A))). set (R1 := assign_bounds R (lo A) (hi A)).
      assert (O1 : ok (hi R1)) by (cbn; apply (omax_ok); assumption). assert (L1 : o_le (hi R) (hi R1) = true /\ o_le (hi A) (hi R1) = true).
      { unfold R1, assign_bounds; cbn [hi]. unfold omax, ok in *. clear - HO HR OA. destruct (o_lt (hi R) (hi A)) eqn:E; split; ord HO. }
      destruct (IH R1 O1) as (I1 & I2 & I3 & I4). destruct L1 as [La Lb]. split; [exact I1|]. split; [|split].
      + clear - HO I2 La. ord HO.
      + intros B [<-|HB]; [|exact (I3 B HB)]. clear - HO I2 Lb. ord HO.
      + destruct I4 as [E|(B & HB & E)]; [|right; exists B; split; [now right|exact E]]. rewrite E. unfold R1, assign_bounds; cbn [hi]. unfold omax.
        destruct (o_lt (hi R) (hi A)); [right; exists A; split; [now left|reflexivity]|now left].
  Qed.
  Lemma default_empty v : ~ el (@ivl_default N) v.
  Proof. intros [A B]. destruct (nl_zero N HN) as [Z1 Z2]. cbn in A, B. clear - HO A B Z1 Z2. ord HO. Qed.
  Lemma ok_default : ok (lo (@ivl_default N)) /\ ok (hi (@ivl_default N)).
  Proof. destruct (nl_zero N HN) as [A B]. split; cbn; unfold ok; [clear - HO B|clear - HO A]; ord HO. Qed.
  Lemma joins_incl l l' v : Forall proper l -> Forall proper l' -> incl l l' -> el (joins l ivl_default) v -> el (joins l' ivl_default) v.
  Proof.
    intros Hl Hl' I [V1 V2]. destruct ok_default as [D1 D2]. destruct (join_lo l Hl _ D1) as (_ & _ & _ & A4). destruct (join_lo l' Hl' _ D1) as (_ & B2 & B3 & _).
    destruct (join_hi l Hl _ D2) as (_ & _ & _ & C4). destruct (join_hi l' Hl' _ D2) as (_ & E2 & E3 & _). split.
    - assert (K : o_le (lo (joins l' ivl_default)) (lo (joins l ivl_default)) = true) by (destruct A4 as [->|(A & HA & ->)]; [exact B2|exact (B3 A (I A HA))]). clear - HO K V1. ord HO.
    - assert (K : o_le (hi (joins l ivl_default)) (hi (joins l' ivl_default)) = true) by (destruct C4 as [->|(A & HA & ->)]; [exact E2|exact (E3 A (I A HA))]). clear - HO K V2. ord HO.
  Qed.
  Lemma joins_hull l : Forall proper l -> l <> [] -> is_hull (fun v => exists A, In A l /\ el A v) (joins l ivl_default).
  Proof.
    intros Hl Hn. destruct ok_default as [D1 D2]. destruct (join_lo l Hl _ D1) as (A1 & A2 & A3 & A4). destruct (join_hi l Hl _ D2) as (B1 & B2 & B3 & B4). split; [|split].
    - intros v (A & HA & V1 & V2). pose proof (A3 A HA) as K1. pose proof (B3 A HA) as K2. split; [clear - HO K1 V1; ord HO|clear - HO K2 V2; ord HO].
    - destruct l as [|A0 l0]; [congruence|]. assert (P : forall A, In A (A0 :: l0) -> proper A) by (apply Forall_forall; exact Hl).
      destruct A4 as [E|(A & HA & E)].
      + exists (lo A0). split; [exists A0; split; [now left|apply (el_lower HO), P; now left]|]. pose proof (A3 A0 (or_introl eq_refl)) as K. destruct (proper_oks HO A0 (P A0 (or_introl eq_refl))) as [O0 _].
        pose proof (nl_top N HN (lo A0) O0) as T. rewrite E in *. cbn [lo ivl_default] in *. clear - HO K T. ord HO.
      + exists (lo A). split; [exists A; split; [exact HA|apply (el_lower HO), P, HA]|]. rewrite E. destruct (proper_oks HO A (P A HA)) as [O0 _]. unfold ok in O0. clear - HO O0. ord HO.
    - destruct l as [|A0 l0]; [congruence|]. assert (P : forall A, In A (A0 :: l0) -> proper A) by (apply Forall_forall; exact Hl).
      destruct B4 as [E|(A & HA & E)].
      + exists (hi A0). split; [exists A0; split; [now left|apply (el_upper HO), P; now left]|]. pose proof (B3 A0 (or_introl eq_refl)) as K. destruct (proper_oks HO A0 (P A0 (or_introl eq_refl))) as [_ O0].
        pose proof (nl_bot N HN (hi A0) O0) as T. rewrite E in *. cbn [hi ivl_default] in *. clear - HO K T. ord HO.
      + exists (hi A). split; [exists A; split; [exact HA|apply (el_upper HO), P, HA]|]. rewrite E. destruct (proper_oks HO A (P A HA)) as [_ O0]. unfold ok in O0. clear - HO O0. ord HO.
  Qed.
End Joins.

Section Trace.
  Context {N : num} {M : option (math N)} (HP : prog_type N M) (dbg : bool).
  Let HN := prog_laws N M HP.
  Let HO := nl_ord N HN.
  (** A run assigns a list of intervals that does not depend on the result so far. *)
  Lemma trace p : forall V cs R Z, pclean M dbg V cs p -> LangModel.irun M dbg V cs p R = Ret Z ->
    exists l, Forall proper l /\ forall R', LangModel.irun M dbg V cs p R' = Ret (joins l R').
  Proof.
    induction p as [|e|p IHp q IHq|e p IHp|f IHf p IHp|t p IHp q IHq|x k p IHp]; intros V cs R Z Cl E; cbn [LangModel.irun pclean] in *.
    - exists []. split; [constructor|]. reflexivity.
    - apply bind_inv in E as (x & Ex & E). pose proof (as_ivl_proper x (eclean_number dbg V e x Cl Ex)) as HA. exists [as_ivl x]. split; [constructor; [exact HA|constructor]|].
      intros R'. rewrite Ex. cbn [bind]. exact (assign_joins HN R' (as_ivl x) HA).
    - destruct Cl as [C1 C2]. apply bind_inv in E as (Y & EY & E). destruct (IHp _ _ _ _ C1 EY) as (l & Hl & El). destruct (IHq _ _ _ _ C2 E) as (l' & Hl' & El').
      exists (l ++ l'). split; [apply Forall_app; auto|]. intros R'. rewrite El. cbn [bind]. rewrite El', joins_app. reflexivity.
    - destruct Cl as [C1 C2]. apply bind_inv in E as (x & Ex & E). destruct (IHp _ _ _ _ (C2 x Ex) E) as (l & Hl & El). exists l. split; [exact Hl|]. intros R'. rewrite Ex. exact (El R').
    - destruct Cl as [C1 C2]. apply bind_inv in E as (Y & EY & E). destruct (IHp _ _ _ _ (C2 Y EY) E) as (l & Hl & El). exists l. split; [exact Hl|]. intros R'. rewrite EY. exact (El R').
    - destruct Cl as [_ Cl]. apply bind_inv in E as (c & Ec & E). destruct (Cl c Ec) as [C1 C2]. apply bind_inv in E as (Y & EY & E).
      assert (G : exists l, Forall proper l /\ forall R', (if cpossible c then LangModel.irun M dbg V (c :: cs) p R' else Ret R') = Ret (joins l R')).
      { destruct (cpossible c); [exact (IHp _ _ _ _ (C1 eq_refl) EY)|]. exists []. split; [constructor|reflexivity]. }
      destruct G as (l & Hl & El).
      assert (G : exists l', Forall proper l' /\ forall R', (if cpossible_not c then c' <- c_not dbg c ;; LangModel.irun M dbg V (c' :: cs) q R' else Ret R') = Ret (joins l' R')).
      { destruct (cpossible_not c); [|exists []; split; [constructor|reflexivity]]. apply bind_inv in E as (c' & Ec' & E). rewrite Ec'. exact (IHq _ _ _ _ (C2 eq_refl c' Ec') E). }
      destruct G as (l' & Hl' & El'). exists (l ++ l'). split; [apply Forall_app; auto|]. intros R'. rewrite Ec. cbn [bind]. rewrite El. cbn [bind]. rewrite El', joins_app. reflexivity.
    - apply bind_inv in E as (a & Ea & E). apply bind_inv in E as (c & Ec & E). destruct a as [v|X]; [discriminate|]. apply bind_inv in E as (Y & EY & E).
      destruct (IHp _ _ _ _ (Cl X c Y Ea Ec EY) E) as (l & Hl & El). exists l. split; [exact Hl|]. intros R'. rewrite Ea. cbn [bind]. rewrite Ec. cbn [bind]. rewrite EY. exact (El R').
  Qed.

  Notation index := (int_ordty 64).
  Variables (s : search) (xs : list N) (body : Z -> prog N) (X : ivl N) (Ys : list (ivl N)).
  Notation clean_at j := (forall XC, piece_constrain dbg s xs X j = Ret XC -> pclean M dbg (map Iv (XC :: Ys)) [] (body (val j))).
  (** The result of one piece alone. *)
  Definition piece_result (j : index) (Rj : ivl N) : Prop :=
    exists XC, piece_constrain dbg s xs X j = Ret XC /\ LangModel.irun M dbg (map Iv (XC :: Ys)) [] (body (val j)) ivl_default = Ret Rj.

  Lemma loop_trace l : (forall j, In j l -> clean_at j) -> forall R Z, piece_loop M dbg s xs body X Ys R l = Ret Z ->
    exists tr, Forall proper tr /\ Z = joins tr R
      /\ (forall A, In A tr -> exists j Rj, In j l /\ piece_result j Rj /\ forall v, el A v -> el Rj v)
      /\ (forall j Rj, In j l -> piece_result j Rj -> exists l', Forall proper l' /\ incl l' tr /\ Rj = joins l' ivl_default).
  Proof.
    induction l as [|j l IH]; intros Cl R Z E; cbn [piece_loop] in E.
    - injection E as <-. exists []. split; [constructor|]. split; [reflexivity|]. split; [intros A []|intros j Rj []].
    - apply bind_inv in E as (XC & EX & E). apply bind_inv in E as (R1 & E1 & E). destruct (trace _ _ _ _ _ (Cl j (or_introl eq_refl) XC EX) E1) as (t & Ht & Et).
      destruct (IH ltac:(intros j' Hj; apply Cl; now right) R1 Z E) as (tr & Htr & EZ & K1 & K2). rewrite Et in E1. injection E1 as <-.
      exists (t ++ tr). split; [apply Forall_app; auto|]. split; [rewrite joins_app; exact EZ|]. split.
      + intros A HA. apply in_app_or in HA as [HA|HA].
        * exists j, (joins t ivl_default). split; [now left|]. split; [exists XC; split; [exact EX|apply Et]|]. intros v Hv.
          apply (joins_hull HN t Ht); [intros ->; destruct HA|]. exists A. auto.
        * destruct (K1 A HA) as (j' & Rj & Hj & H). exists j', Rj. split; [now right|exact H].
      + intros j' Rj [<-|Hj] HR.
        * destruct HR as (XC' & EX' & ER). rewrite EX in EX'. injection EX' as <-. rewrite Et in ER. injection ER as <-. exists t. split; [exact Ht|]. split; [apply incl_appl, incl_refl|reflexivity].
        * destruct (K2 j' Rj Hj HR) as (l' & Hl' & I & ->). exists l'. split; [exact Hl'|]. split; [now apply incl_appr|reflexivity].
  Qed.
  Lemma piece_hull R : sorted xs -> (Z.of_nat (length xs) <= int_max 64)%Z -> proper X -> (forall i j, piece_index dbg s xs X = Ret i -> el i j -> clean_at j) ->
    piece M dbg s xs body X Ys = Ret R -> exists i, piece_index dbg s xs X = Ret i /\
    ((exists v j Rj, el i j /\ piece_result j Rj /\ el Rj v) -> is_hull (fun v => exists j Rj, el i j /\ piece_result j Rj /\ el Rj v) R)
    /\ ((forall v j Rj, el i j -> piece_result j Rj -> ~ el Rj v) -> R = ivl_default).
  Proof.
    intros Hs Hm HX Cl E. destruct (index_positions HN dbg s xs Hs Hm X HX) as (k & l & i & Sk & Sl & Hkl & Ei & Vl & Vh). pose proof (pos_le s xs _ _ Sl) as Ll.
    unfold piece in E. rewrite Ei in E. cbn [bind] in E. destruct (enumerate_index i (S (S (length xs)))) as (li & El & Hl); [lia|lia|]. rewrite El in E. cbn [bind] in E.
    exists i. split; [exact Ei|]. destruct (loop_trace li ltac:(intros j' Hj; apply (Cl i j' Ei), el_index, Hl, Hj) ivl_default R E) as (tr & Htr & -> & K1 & K2).
    assert (K1' : forall A v, In A tr -> el A v -> exists j Rj, el i j /\ piece_result j Rj /\ el Rj v).
    { intros A v HA Hv. destruct (K1 A HA) as (j & Rj & Hj & HR & HAv). exists j, Rj. split; [apply el_index, Hl, Hj|]. auto. }
    assert (K2' : forall v j Rj, el i j -> piece_result j Rj -> el Rj v -> el (joins tr ivl_default) v).
    { intros v j Rj Hj HR Hv. destruct (K2 j Rj ltac:(apply Hl, el_index, Hj) HR) as (l' & Hl' & I & ->). exact (joins_incl HN l' tr v Hl' Htr I Hv). }
    destruct tr as [|A0 tr'].
    - split; [|reflexivity]. intros (v & j & Rj & Hj & HR & Hv). destruct (default_empty HN v (K2' v j Rj Hj HR Hv)).
    - split; [intros _|].
      + destruct (joins_hull HN _ Htr ltac:(discriminate)) as (_ & (a & (A & HA & Ha) & Ea) & (b & (B & HB & Hb) & Eb)). split; [|split].
        * intros v (j & Rj & Hj & HR & Hv). exact (K2' v j Rj Hj HR Hv).
        * exists a. split; [exact (K1' A a HA Ha)|exact Ea].
        * exists b. split; [exact (K1' B b HB Hb)|exact Eb].
      + intros No. exfalso. pose proof (Forall_inv Htr) as HA. destruct (K1' A0 (lo A0) (or_introl eq_refl) (el_lower HO A0 HA)) as (j & Rj & Hj & HR & Hv). exact (No _ j Rj Hj HR Hv).
  Qed.
  Lemma piece_result_hull R : sorted xs -> (Z.of_nat (length xs) <= int_max 64)%Z -> proper X -> (forall i j, piece_index dbg s xs X = Ret i -> el i j -> clean_at j) ->
    piece M dbg s xs body X Ys = Ret R -> exists i, piece_index dbg s xs X = Ret i /\
    let of_piece v := exists j Rj, el i j /\ piece_result j Rj /\ el Rj v in
    ((exists v, of_piece v) -> is_hull of_piece R) /\ ((forall v, ~ of_piece v) -> R = ivl_default).
  Proof.
    intros Hs Hm HX Cl E. destruct (piece_hull R Hs Hm HX Cl E) as (i & Ei & H1 & H2). exists i. split; [exact Ei|]. split; [exact H1|]. intros No. apply H2. intros v j Rj Hj HR Hv. apply (No v). exists j, Rj. auto.
  Qed.
End Trace.
