(** Properties of piecewise programs (C75). *)
From Coq Require Import Bool List Arith ZArith Lia.
From Verif Require Import Outcome SetModel Spec Num NumLaws IntervalModel IvlSpec IntNum IntProofs ValueTypes IvlWrap ConstrainModel AlgoModel AlgoSpec AlgoProofs4
  MathModel MathSpec LangModel LangSpec LangProofs2 PieceModel PieceProofs PieceProofs2.
Import ListNotations.
Open Scope nat_scope.

(** ** C75 *)
(** For a number: the body of its position. *)
Theorem C75_scalar : forall (N : num) (M : option (math N)) dbg s (xs : list N) (body : Z -> prog N) x ys m, (Z.of_nat (length xs) <= int_max 64)%Z ->
  match s with SLower => lower_bound_at xs x m | SUpper => upper_bound_at xs x m end ->
  piece_scalar M dbg s xs body x ys = srun M dbg (x :: ys) [] (body (Z.of_nat m)) None.
Proof. exact (fun N M dbg s xs body x ys m L => scalar_piece dbg s xs body L x ys m). Qed.
Print Assumptions C75_scalar.
(** If the run over intervals returns, its result contains the result of the run over numbers for every choice of elements. *)
Theorem C75_included : forall N M, prog_type N M -> forall dbg s (xs : list N) (body : Z -> prog N), sorted xs -> (Z.of_nat (length xs) <= int_max 64)%Z ->
  forall X Ys x ys, el X x -> Forall2 el Ys ys ->
  (forall j, (0 <= j <= Z.of_nat (length xs))%Z -> well_formed (repeat true (S (length Ys))) [] (body j) = true) ->
  (forall j, (0 <= j <= Z.of_nat (length xs))%Z -> pfuns (monotone M) (body j)) ->
  forall R, (forall i j, piece_index dbg s xs X = Ret i -> el i j -> forall XC, piece_constrain dbg s xs X j = Ret XC -> pclean M dbg (map Iv (XC :: Ys)) [] (body (val j))) ->
  piece M dbg s xs body X Ys = Ret R ->
  exists o, piece_scalar M dbg s xs body x ys = Ret o /\ (forall v, o = Some v -> el R v)
    /\ ((forall j, (0 <= j <= Z.of_nat (length xs))%Z -> complete (body j) = true) -> o <> None).
Proof. exact (fun N M H dbg s xs body S L X Ys x ys Hx Hy W F R C E => piece_included H dbg s xs body S L X Ys x ys Hx Hy W F R C E). Qed.
Print Assumptions C75_included.
(** And it is no larger than needed: the smallest interval containing the results of the pieces, each run alone; nothing is assigned if no piece assigns anything. *)
Theorem C75_result : forall N M, prog_type N M -> forall dbg s (xs : list N) (body : Z -> prog N) X Ys R, sorted xs -> (Z.of_nat (length xs) <= int_max 64)%Z -> proper X ->
  (forall i j, piece_index dbg s xs X = Ret i -> el i j -> forall XC, piece_constrain dbg s xs X j = Ret XC -> pclean M dbg (map Iv (XC :: Ys)) [] (body (val j))) ->
  piece M dbg s xs body X Ys = Ret R ->
  exists i, piece_index dbg s xs X = Ret i /\
    let of_piece v := exists j Rj, el i j
      /\ (exists XC, piece_constrain dbg s xs X j = Ret XC /\ LangModel.irun M dbg (map Iv (XC :: Ys)) [] (body (val j)) ivl_default = Ret Rj) /\ el Rj v in
    ((exists v, of_piece v) -> is_hull of_piece R) /\ ((forall v, ~ of_piece v) -> R = ivl_default).
Proof. exact (fun N M H dbg s xs body X Ys R => piece_result_hull H dbg s xs body X Ys R). Qed.
Print Assumptions C75_result.
(** In a table without repetitions the loop visits exactly the positions of the elements: no piece is missed, none is run in vain. *)
Theorem C75_pieces : forall N, value_type N -> forall dbg s (xs : list N), sorted xs -> ascending xs -> (Z.of_nat (length xs) <= int_max 64)%Z -> forall X, proper X ->
  exists i, piece_index dbg s xs X = Ret i /\ forall j, el i j <->
    exists v k, el X v /\ match s with SLower => lower_bound_at xs v k | SUpper => upper_bound_at xs v k end /\ val j = Z.of_nat k.
Proof. exact (fun N V dbg s xs S A L X P => piece_indices (value_type_laws N V) dbg s xs X S A L P). Qed.
Print Assumptions C75_pieces.
(** There the program returns if each body returns on the values of its piece. *)
Theorem C75_returns : forall N, value_type N -> forall M dbg s (xs : list N) (body : Z -> prog N), sorted xs -> ascending xs -> (Z.of_nat (length xs) <= int_max 64)%Z ->
  forall X Ys, proper X ->
  (forall j XC r v, piece_constrain dbg s xs X j = Ret XC -> el XC v -> el X v ->
     match s with SLower => lower_bound_at xs v (Z.to_nat (val j)) | SUpper => upper_bound_at xs v (Z.to_nat (val j)) end ->
     exists Z, LangModel.irun M dbg (map Iv (XC :: Ys)) [] (body (val j)) r = Ret Z) ->
  exists R, piece M dbg s xs body X Ys = Ret R.
Proof. exact (fun N V M dbg s xs body S A L X Ys P H => piece_total (value_type_laws N V) dbg s xs M body X Ys S A L P H). Qed.
Print Assumptions C75_returns.
(** A table with a repeated entry: the loop visits the position between the two, which no value has, and the constraint fails there, although the
    run over numbers returns for every value.  So C75_returns needs its hypothesis. *)
Theorem C75_repeated_refuted : exists (xs : list int32) X, sorted xs /\ proper X
  /\ (forall dbg s, piece None dbg s xs copy_x X [] = FailFast)
  /\ (forall dbg s x, el X x -> exists v, piece_scalar None dbg s xs copy_x x [] = Ret (Some v)).
Proof. exact repeated_fails. Qed.
Print Assumptions C75_repeated_refuted.

(** A tariff: up to 10 the amount counts three times, up to 20 twice, above that once; a second parameter is added.  The amount is in [5,25], the other in [0,1]. *)
Definition rates : list int32 := [i32 10; i32 20].
Definition tariff (j : Z) : prog int32 := PAssign (EBin BAdd (EBin BMul (EVar 0) (ELit (i32 (3 - j)))) (EVar 1)).
Definition Z525 : ivl int32 := Ivl (i32 5) (i32 25).
Definition Z01 : ivl int32 := Ivl (i32 0) (i32 1).
Example C75_example : prog_type int32 None /\ value_type int32 /\ sorted rates /\ ascending rates /\ (Z.of_nat (length rates) <= int_max 64)%Z /\ el Z525 (i32 15) /\ Forall2 el [Z01] [i32 1]
  /\ (forall j, well_formed (repeat true 2) [] (tariff j) = true) /\ (forall j, pfuns (monotone (N := int32) None) (tariff j)) /\ (forall j, complete (tariff j) = true)
  /\ (forall i j, piece_index true SLower rates Z525 = Ret i -> el i j -> forall XC, piece_constrain true SLower rates Z525 j = Ret XC -> pclean None true (map Iv [XC; Z01]) [] (tariff (val j)))
  /\ (exists R, piece None true SLower rates tariff Z525 [Z01] = Ret R /\ ((val (lo R) =? 15) && (val (hi R) =? 41))%Z = true)
  /\ (exists o, piece_scalar None true SLower rates tariff (i32 15) [i32 1] = Ret o /\ match o with Some v => (val v =? 31)%Z | None => false end = true).
Proof.
  split; [exact (pt_value int32 vt_int32)|]. split; [exact vt_int32|]. split; [|split; [|split; [vm_compute; discriminate|split; [split; vm_compute; reflexivity|split; [repeat constructor|]]]]].
  - intros [|[|[|i]]] [|[|[|j]]] v w L Ei Ej; try discriminate; try lia; injection Ei as <-; injection Ej as <-; vm_compute; reflexivity.
  - intros [|[|[|i]]] [|[|[|j]]] v w L Ei Ej; try discriminate; try lia; injection Ei as <-; injection Ej as <-; vm_compute; reflexivity.
  - split; [reflexivity|]. split; [intros j; cbn; tauto|]. split; [reflexivity|]. split; [|split; apply ret_witness; vm_compute; reflexivity].
    intros i j Ei Hj XC EX. apply el_index in Hj.
    assert (B : on (piece_index true SLower rates Z525) (fun i => (val (lo i) =? 0) && (val (hi i) =? 2))%Z = true) by (vm_compute; reflexivity).
    pose proof (on_ok _ _ B i Ei) as B'. cbn beta in B'. apply andb_true_iff in B' as [B1 B2]. apply Z.eqb_eq in B1, B2.
    assert (Hi : j = i64 0 \/ j = i64 1 \/ j = i64 2).
    { assert (V : (val j = 0 \/ val j = 1 \/ val j = 2)%Z) by lia. destruct V as [V|[V|V]]; [left|right; left|right; right]; apply val_inj; rewrite V; vm_compute; reflexivity. }
    apply (pclean_ok (value_type_laws _ vt_int32)). revert XC EX. apply on_ok. destruct Hi as [->|[->| ->]]; vm_compute; reflexivity.
Qed.
