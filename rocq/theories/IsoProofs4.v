(** Runs with narrower inputs: the statements, and programs for which they fail. *)
From Coq Require Import Bool List Arith ZArith Lia.
From Verif Require Import Outcome SetModel Spec Num NumLaws IntervalModel IvlSpec IvlProofs IvlWrap ConstrainModel CondSpec ConstrainProofs ConstrainProofs2 ConstrainProofs3 ConstrainProofs4
  MathModel MathSpec IntNum IntProofs ValueTypes LangModel LangSpec LangProofs LangProofs2 PieceProofs IsoSpec IsoProofs IsoProofs2 IsoProofs3.
Import ListNotations.

Section Iso.
  Context {N : num} {M : option (math N)} (HP : prog_type N M) (dbg : bool).
  Let HN := prog_laws N M HP.
  Let HO := nl_ord N HN.
  Lemma inputs_proper (Xs : list (ivl N)) : Forall proper Xs -> Forall aproper (map Iv Xs).
  Proof. induction 1; constructor; auto. Qed.
  Lemma inputs_ale (Xs Xs' : list (ivl N)) : Forall2 subset Xs Xs' -> Forall2 ale (map Iv Xs) (map Iv Xs').
  Proof. induction 1; constructor; auto. Qed.
  Lemma expression_iso Xs Xs' (e : expr N) a' : Forall proper Xs -> Forall2 subset Xs Xs' -> eclean M dbg (map Iv Xs') e -> efuns (monotone M) e -> ieval M dbg (map Iv Xs') e = Ret a' ->
    eclean M dbg (map Iv Xs) e /\ exists a, ieval M dbg (map Iv Xs) e = Ret a /\ aproper a /\ asubset a a'.
  Proof.
    intros P S C F E. destruct (proj1 (eval_iso HP dbg _ _ (inputs_proper Xs P) (inputs_ale Xs Xs' S)) e C F a' E) as (Cn & a & Ea & Pa & L). split; [exact Cn|]. exists a.
    split; [exact Ea|]. split; [exact Pa|]. exact (ale_sub a a' L).
  Qed.
  Lemma test_iso Xs Xs' (t : test N) c' : Forall proper Xs -> Forall2 subset Xs Xs' -> tclean M dbg (map Iv Xs') t -> tfuns (monotone M) t -> itest M dbg (map Iv Xs') t = Ret c' ->
    exists c, itest M dbg (map Iv Xs) t = Ret c /\ (exists b, member (cset c) b) /\ forall b, member (cset c) b -> member (cset c') b.
  Proof.
    intros P S C F E. destruct (proj2 (eval_iso HP dbg _ _ (inputs_proper Xs P) (inputs_ale Xs Xs' S)) t C F c' E) as (_ & _ & c & Ec & W & L). exists c. split; [exact Ec|].
    split; [exact (proj2 (wfc_wf HO c W))|]. exact (cle_set c c' L).
  Qed.
  Lemma program_iso Xs Xs' (p : prog N) Z' : Forall proper Xs -> Forall2 subset Xs Xs' -> well_formed (repeat true (length Xs)) [] p = true -> pclean M dbg (map Iv Xs') [] p ->
    pfuns (monotone M) p -> LangModel.irun M dbg (map Iv Xs') [] p ivl_default = Ret Z' ->
    pclean M dbg (map Iv Xs) [] p
    /\ (forall Z, LangModel.irun M dbg (map Iv Xs) [] p ivl_default = Ret Z -> subset Z Z' /\ (complete p = true -> proper Z))
    /\ (solo_constraints [] p = true -> exists Z, LangModel.irun M dbg (map Iv Xs) [] p ivl_default = Ret Z).
  Proof.
    intros P S W C F E. rewrite <- inputs_kind in W. pose proof (oks_default HP) as O.
    destruct (run_iso HP dbg p _ _ [] [] [] ivl_default Z' (inputs_proper Xs P) (inputs_ale Xs Xs' S) (en_nil _ _) W C F O E) as [Cn K]. destruct (K ivl_default O (rle_oks _ O)) as [A B].
    split; [exact Cn|]. split; [|exact B]. intros Z EZ. destruct (A Z EZ) as [L Pz]. split; [exact (rle_subset HO Z Z' L)|exact Pz].
  Qed.
  Lemma subdivided Xs (p : prog N) R (Bs : list (list (ivl N))) : Forall proper Xs -> well_formed (repeat true (length Xs)) [] p = true -> pclean M dbg (map Iv Xs) [] p ->
    pfuns (monotone M) p -> solo_constraints [] p = true -> LangModel.irun M dbg (map Iv Xs) [] p ivl_default = Ret R ->
    (forall B, In B Bs -> Forall proper B /\ Forall2 subset B Xs) -> (forall xs, Forall2 el Xs xs -> exists B, In B Bs /\ Forall2 el B xs) ->
    (forall B, In B Bs -> exists Z, LangModel.irun M dbg (map Iv B) [] p ivl_default = Ret Z /\ subset Z R)
    /\ forall xs v, Forall2 el Xs xs -> srun M dbg xs [] p None = Ret (Some v) -> exists B Z, In B Bs /\ LangModel.irun M dbg (map Iv B) [] p ivl_default = Ret Z /\ el Z v.
  Proof.
    intros P W C F S E HB Cov.
    assert (Len : forall B, In B Bs -> length B = length Xs) by (intros B Hi; destruct (HB B Hi) as [_ S2]; clear - S2; induction S2; cbn; congruence).
    assert (K : forall B, In B Bs -> pclean M dbg (map Iv B) [] p /\ exists Z, LangModel.irun M dbg (map Iv B) [] p ivl_default = Ret Z /\ subset Z R).
    { intros B Hi. destruct (HB B Hi) as [PB SB]. pose proof W as WB. rewrite <- (Len B Hi) in WB. destruct (program_iso B Xs p R PB SB WB C F E) as (Cn & A & Rt). split; [exact Cn|].
      destruct (Rt S) as [Z EZ]. exists Z. split; [exact EZ|]. exact (proj1 (A Z EZ)). }
    split; [intros B Hi; exact (proj2 (K B Hi))|]. intros xs v Hx Ev. destruct (Cov xs Hx) as (B & Hi & Hb). destruct (K B Hi) as (Cn & Z & EZ & _). exists B, Z. split; [exact Hi|]. split; [exact EZ|].
    pose proof W as WB. rewrite <- (Len B Hi) in WB. destruct (program_included HP dbg B xs p Z Hb WB Cn F EZ) as (o & Eo & Ho & _). rewrite Ev in Eo. injection Eo as <-. now apply Ho.
  Qed.
End Iso.

(** [if (possibly(c = (x < y & x > y))) { auto xc = constrain(x, c); assign_partial(result, xc); } …] *)
Definition both_sides : prog int32 :=
  PIf (QAnd (QRel RLt (EVar 0) (EVar 1)) (QRel RGt (EVar 0) (EVar 1))) (PConstrain 0 (KVar 0) (PAssign (EVar 2))) (PAssign (EVar 1)).
(** [if (possibly(c = (x < 3 | y < 3))) { auto xc = constrain(x, c); assign_partial(result, xc); } …] *)
Definition either_side : prog int32 :=
  PIf (QOr (QRel RLt (EVar 0) (ELit (i32 3))) (QRel RLt (EVar 1) (ELit (i32 3)))) (PConstrain 0 (KVar 0) (PAssign (EVar 2))) (PAssign (ELit (i32 0))).
Definition zi (a b : Z) : ivl int32 := Ivl (i32 a) (i32 b).
Lemma zi_subset a b c d : o_le (i32 c) (i32 a) = true -> o_le (i32 b) (i32 d) = true -> subset (zi a b) (zi c d).
Proof. intros A B v [H1 H2]. cbn [lo hi zi] in *. pose proof (nl_ord _ (value_type_laws _ vt_int32)) as HO. split; cbn [lo hi zi]; eapply (ol_trans _ HO); eassumption. Qed.
Lemma both_sides_fails : exists (Xs Xs' : list (ivl int32)) (p : prog int32), Forall proper Xs /\ Forall2 subset Xs Xs' /\ well_formed (repeat true (length Xs)) [] p = true
  /\ complete p = true /\ pfuns (monotone (N := int32) None) p
  /\ forall dbg, pclean None dbg (map Iv Xs') [] p /\ (exists Z', LangModel.irun None dbg (map Iv Xs') [] p ivl_default = Ret Z')
    /\ LangModel.irun None dbg (map Iv Xs) [] p ivl_default = FailFast.
Proof.
  exists [zi 0 10; zi 5 5], [zi 0 10; zi 4 6], both_sides. split; [repeat constructor|]. split; [constructor; [apply zi_subset; vm_compute; reflexivity|constructor; [apply zi_subset; vm_compute; reflexivity|constructor]]|].
  split; [reflexivity|]. split; [reflexivity|]. split; [cbn; tauto|]. intros dbg. split; [|split].
  - apply (pclean_ok (value_type_laws _ vt_int32)). destruct dbg; vm_compute; reflexivity.
  - assert (H : exists Z', LangModel.irun None dbg (map Iv [zi 0 10; zi 4 6]) [] both_sides ivl_default = Ret Z' /\ true = true) by (apply (ret_witness _ (fun _ => true)); destruct dbg; vm_compute; reflexivity).
    destruct H as (Z' & H & _). eauto.
  - apply failfast_witness. destruct dbg; vm_compute; reflexivity.
Qed.
Lemma either_side_grows : exists (Xs Xs' : list (ivl int32)) (p : prog int32), Forall proper Xs /\ Forall2 subset Xs Xs'
  /\ complete p = true /\ solo_constraints [] p = false /\ pfuns (monotone (N := int32) None) p
  /\ forall dbg, pclean None dbg (map Iv Xs') [] p /\ exists Z Z', LangModel.irun None dbg (map Iv Xs) [] p ivl_default = Ret Z
    /\ LangModel.irun None dbg (map Iv Xs') [] p ivl_default = Ret Z' /\ ~ subset Z Z'.
Proof.
  exists [zi 5 10; zi 0 10], [zi 0 10; zi 0 10], either_side. split; [repeat constructor|]. split; [constructor; [apply zi_subset; vm_compute; reflexivity|constructor; [apply zi_subset; vm_compute; reflexivity|constructor]]|].
  split; [reflexivity|]. split; [reflexivity|]. split; [cbn; tauto|]. intros dbg. split; [apply (pclean_ok (value_type_laws _ vt_int32)); destruct dbg; vm_compute; reflexivity|].
  assert (H : exists Z, LangModel.irun None dbg (map Iv [zi 5 10; zi 0 10]) [] either_side ivl_default = Ret Z /\ o_le (lo Z) (i32 10) && o_le (i32 10) (hi Z) = true)
    by (apply (ret_witness _ (fun Z => o_le (lo Z) (i32 10) && o_le (i32 10) (hi Z))); destruct dbg; vm_compute; reflexivity).
  assert (H' : exists Z, LangModel.irun None dbg (map Iv [zi 0 10; zi 0 10]) [] either_side ivl_default = Ret Z /\ negb (o_le (i32 10) (hi Z)) = true)
    by (apply (ret_witness _ (fun Z => negb (o_le (i32 10) (hi Z)))); destruct dbg; vm_compute; reflexivity).
  destruct H as (Z & E & H), H' as (Z' & E' & H'). exists Z, Z'. split; [exact E|]. split; [exact E'|]. intros S. apply andb_true_iff in H. specialize (S (i32 10) H). destruct S as [_ S].
  now rewrite S in H'.
Qed.
