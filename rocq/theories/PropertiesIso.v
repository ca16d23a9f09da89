(** Properties of runs with narrower inputs (C76). *)
From Coq Require Import Bool List Arith ZArith Lia.
From Verif Require Import Outcome SetModel Spec Num NumLaws IntervalModel IvlSpec IntNum IntProofs ValueTypes IvlWrap ConstrainModel CondSpec
  MathModel MathSpec LangModel LangSpec LangProofs2 IsoSpec IsoProofs4.
Import ListNotations.

(** ** C76 *)
(** Narrower inputs give a narrower result: the evaluation of an expression returns, stays within the domains of its functions, and gives a number or a nonempty interval inside the wider result. *)
Theorem C76_expression : forall N M, prog_type N M -> forall dbg Xs Xs' (e : expr N) a', Forall proper Xs -> Forall2 subset Xs Xs' ->
  eclean M dbg (map Iv Xs') e -> efuns (monotone M) e -> ieval M dbg (map Iv Xs') e = Ret a' ->
  eclean M dbg (map Iv Xs) e /\ exists a, ieval M dbg (map Iv Xs) e = Ret a /\ aproper a /\ asubset a a'.
Proof. exact (fun N M H dbg Xs Xs' e a' => expression_iso H dbg Xs Xs' e a'). Qed.
Print Assumptions C76_expression.
(** A test has at least one possible truth value, and no new ones: what was certain stays certain. *)
Theorem C76_test : forall N M, prog_type N M -> forall dbg Xs Xs' (t : test N) c', Forall proper Xs -> Forall2 subset Xs Xs' ->
  tclean M dbg (map Iv Xs') t -> tfuns (monotone M) t -> itest M dbg (map Iv Xs') t = Ret c' ->
  exists c, itest M dbg (map Iv Xs) t = Ret c /\ (exists b, member (cset c) b) /\ forall b, member (cset c) b -> member (cset c') b.
Proof. exact (fun N M H dbg Xs Xs' t c' => test_iso H dbg Xs Xs' t c'). Qed.
Print Assumptions C76_test.
(** A program whose constraints are conjunctions: if the run over the narrower inputs returns, its result is inside the result of the run over the wider ones. *)
Theorem C76_program : forall N M, prog_type N M -> forall dbg Xs Xs' (p : prog N) Z', Forall proper Xs -> Forall2 subset Xs Xs' ->
  well_formed (repeat true (length Xs)) [] p = true -> pclean M dbg (map Iv Xs') [] p -> pfuns (monotone M) p ->
  LangModel.irun M dbg (map Iv Xs') [] p ivl_default = Ret Z' ->
  pclean M dbg (map Iv Xs) [] p
  /\ forall Z, LangModel.irun M dbg (map Iv Xs) [] p ivl_default = Ret Z -> subset Z Z' /\ (complete p = true -> proper Z).
Proof. exact (fun N M H dbg Xs Xs' p Z' P S W C F E => let K := program_iso H dbg Xs Xs' p Z' P S W C F E in conj (proj1 K) (proj1 (proj2 K))). Qed.
Print Assumptions C76_program.
(** Missing compared with C76: the run over the narrower inputs returns if every constraint is one comparison. *)
Theorem C76_returns_partial : forall N M, prog_type N M -> forall dbg Xs Xs' (p : prog N) Z', Forall proper Xs -> Forall2 subset Xs Xs' ->
  well_formed (repeat true (length Xs)) [] p = true -> solo_constraints [] p = true -> pclean M dbg (map Iv Xs') [] p -> pfuns (monotone M) p ->
  LangModel.irun M dbg (map Iv Xs') [] p ivl_default = Ret Z' -> exists Z, LangModel.irun M dbg (map Iv Xs) [] p ivl_default = Ret Z.
Proof. exact (fun N M H dbg Xs Xs' p Z' P S W So C F E => proj2 (proj2 (program_iso H dbg Xs Xs' p Z' P S W C F E)) So). Qed.
Print Assumptions C76_returns_partial.
(** Subdivision: if the inputs are cut into boxes, each box is run, each result is inside the undivided one, and together they contain every result of the run over numbers. *)
Theorem C76_subdivision : forall N M, prog_type N M -> forall dbg Xs (p : prog N) R (Bs : list (list (ivl N))), Forall proper Xs ->
  well_formed (repeat true (length Xs)) [] p = true -> pclean M dbg (map Iv Xs) [] p -> pfuns (monotone M) p -> solo_constraints [] p = true ->
  LangModel.irun M dbg (map Iv Xs) [] p ivl_default = Ret R ->
  (forall B, In B Bs -> Forall proper B /\ Forall2 subset B Xs) -> (forall xs, Forall2 el Xs xs -> exists B, In B Bs /\ Forall2 el B xs) ->
  (forall B, In B Bs -> exists Z, LangModel.irun M dbg (map Iv B) [] p ivl_default = Ret Z /\ subset Z R)
  /\ forall xs v, Forall2 el Xs xs -> srun M dbg xs [] p None = Ret (Some v) -> exists B Z, In B Bs /\ LangModel.irun M dbg (map Iv B) [] p ivl_default = Ret Z /\ el Z v.
Proof. exact (fun N M H dbg Xs p R Bs => subdivided H dbg Xs p R Bs). Qed.
Print Assumptions C76_subdivision.
(** A conjunction of two comparisons: possible over the wider inputs, contradictory over the narrower ones, where [constrain] fails. *)
Theorem C76_returns_refuted : exists (Xs Xs' : list (ivl int32)) (p : prog int32), Forall proper Xs /\ Forall2 subset Xs Xs' /\ well_formed (repeat true (length Xs)) [] p = true
  /\ complete p = true /\ pfuns (monotone (N := int32) None) p
  /\ forall dbg, pclean None dbg (map Iv Xs') [] p /\ (exists Z', LangModel.irun None dbg (map Iv Xs') [] p ivl_default = Ret Z')
    /\ LangModel.irun None dbg (map Iv Xs) [] p ivl_default = FailFast.
Proof. exact both_sides_fails. Qed.
Print Assumptions C76_returns_refuted.
(** A constraint that is a disjunction: the run over the narrower inputs has a result outside the result of the run over the wider ones. *)
Theorem C76_disjunction_refuted : exists (Xs Xs' : list (ivl int32)) (p : prog int32), Forall proper Xs /\ Forall2 subset Xs Xs'
  /\ complete p = true /\ solo_constraints [] p = false /\ pfuns (monotone (N := int32) None) p
  /\ forall dbg, pclean None dbg (map Iv Xs') [] p /\ exists Z Z', LangModel.irun None dbg (map Iv Xs) [] p ivl_default = Ret Z
    /\ LangModel.irun None dbg (map Iv Xs') [] p ivl_default = Ret Z' /\ ~ subset Z Z'.
Proof. exact either_side_grows. Qed.
Print Assumptions C76_disjunction_refuted.

(** [if (possibly(c = x < y)) { auto xc = constrain(x, c); assign_partial(result, y - xc); } if (possibly_not(c)) assign_partial(result, square(x));] *)
Definition gap : prog int32 :=
  PIf (QRel RLt (EVar 0) (EVar 1)) (PConstrain 0 (KVar 0) (PAssign (EBin BSub (EVar 1) (EVar 2)))) (PAssign (EUn USquare (EVar 0))).
Example C76_example : prog_type int32 None /\ Forall proper [zi 0 3; zi 2 5] /\ Forall2 subset [zi 0 3; zi 2 5] [zi (-1) 10; zi 0 6]
  /\ well_formed (repeat true 2) [] gap = true /\ complete gap = true /\ solo_constraints [] gap = true /\ pfuns (monotone (N := int32) None) gap
  /\ eclean None true (map Iv [zi (-1) 10; zi 0 6]) (EBin BSub (EVar 1) (EUn USquare (EVar 0))) /\ efuns (N := int32) (monotone (N := int32) None) (EBin BSub (EVar 1) (EUn USquare (EVar 0)))
  /\ tclean None true (map Iv [zi (-1) 10; zi 0 6]) (QRel RLt (EVar 0) (EVar 1)) /\ tfuns (N := int32) (monotone (N := int32) None) (QRel RLt (EVar 0) (EVar 1))
  /\ (exists a, ieval None true (map Iv [zi (-1) 10; zi 0 6]) (EBin BSub (EVar 1) (EUn USquare (EVar 0))) = Ret a /\ ((val (alower a) =? -100) && (val (aupper a) =? 6))%Z = true)
  /\ (exists a, ieval None true (map Iv [zi 0 3; zi 2 5]) (EBin BSub (EVar 1) (EUn USquare (EVar 0))) = Ret a /\ ((val (alower a) =? -7) && (val (aupper a) =? 5))%Z = true)
  /\ (exists c, itest None true (map Iv [zi (-1) 10; zi 0 6]) (QRel RLt (EVar 0) (EVar 1)) = Ret c /\ possibly (cset c) && possibly_not (cset c) = true)
  /\ pclean None true (map Iv [zi (-1) 10; zi 0 6]) [] gap
  /\ (exists Z, LangModel.irun None true (map Iv [zi (-1) 10; zi 0 6]) [] gap ivl_default = Ret Z /\ ((val (lo Z) =? -5) && (val (hi Z) =? 100))%Z = true)
  /\ (exists Z, LangModel.irun None true (map Iv [zi 0 3; zi 2 5]) [] gap ivl_default = Ret Z /\ ((val (lo Z) =? -1) && (val (hi Z) =? 9))%Z = true).
Proof.
  split; [exact (pt_value int32 vt_int32)|]. split; [repeat constructor|]. split; [constructor; [apply zi_subset; vm_compute; reflexivity|constructor; [apply zi_subset; vm_compute; reflexivity|constructor]]|].
  split; [reflexivity|]. split; [reflexivity|]. split; [reflexivity|]. split; [cbn; repeat split; discriminate|].
  split; [apply (clean_ok (value_type_laws _ vt_int32)); vm_compute; reflexivity|]. split; [cbn; repeat split; discriminate|]. split; [apply (clean_ok (value_type_laws _ vt_int32)); vm_compute; reflexivity|]. split; [cbn; repeat split; discriminate|].
  split; [apply ret_witness; vm_compute; reflexivity|]. split; [apply ret_witness; vm_compute; reflexivity|]. split; [apply ret_witness; vm_compute; reflexivity|].
  split; [apply (pclean_ok (value_type_laws _ vt_int32)); vm_compute; reflexivity|]. split; apply ret_witness; vm_compute; reflexivity.
Qed.
(** Two boxes for the subdivision. *)
Example C76_boxes_example : let Xs := [zi (-1) 10; zi 0 6] in let Bs := [[zi (-1) 4; zi 0 6]; [zi 5 10; zi 0 6]] in
  (forall B, In B Bs -> Forall proper B /\ Forall2 subset B Xs) /\ (forall xs, Forall2 el Xs xs -> exists B, In B Bs /\ Forall2 el B xs).
Proof.
  split.
  - intros B [<-|[<-|[]]]; (split; [repeat constructor|constructor; [apply zi_subset; vm_compute; reflexivity|constructor; [apply zi_subset; vm_compute; reflexivity|constructor]]]).
  - intros xs H. inversion H as [|? x ? xs1 Hx H1]; subst. inversion H1 as [|? y ? xs2 Hy H2]; subst. inversion H2; subst. destruct Hx as [A B].
    change ((val (i32 (-1)) <=? val x)%Z = true) in A. change ((val x <=? val (i32 10))%Z = true) in B.
    destruct (Z.leb (val x) 4) eqn:Q; [exists [zi (-1) 4; zi 0 6]|exists [zi 5 10; zi 0 6]]; (split; [cbn; tauto|]); constructor; auto; split.
    + exact A.
    + change ((val x <=? val (i32 4))%Z = true). assert (K : val (i32 4) = 4%Z) by (vm_compute; reflexivity). rewrite K. exact Q.
    + change ((val (i32 5) <=? val x)%Z = true). assert (K : val (i32 5) = 5%Z) by (vm_compute; reflexivity). rewrite K. apply Z.leb_le. apply Z.leb_gt in Q. lia.
    + exact B.
Qed.
