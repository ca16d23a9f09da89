(** Final forms of the results on programs, and a checker for the side conditions of concrete programs. *)
From Coq Require Import Bool List Arith Lia.
From Verif Require Import Outcome SetModel Spec SetProofs Num NumLaws IntervalModel IvlSpec IvlProofs ArithProofs ArithProofs2
  ConstrainModel CondSpec ConstrainProofs5 MathModel MathSpec LangModel LangSpec LangProofs.
Import ListNotations.

Section Final.
  Context {N : num} {M : option (math N)} (HP : prog_type N M) (dbg : bool).
  Let HN := prog_laws N M HP.
  Let HO := nl_ord N HN.

  Lemma inputs_stand (Xs : list (ivl N)) xs : Forall2 el Xs xs -> Forall2 stands (map Iv Xs) xs.
  Proof. intros H. induction H; cbn; constructor; auto. Qed.
  Lemma inputs_kind (Xs : list (ivl N)) : map is_iv (map Iv Xs) = repeat true (length Xs).
  Proof. induction Xs; cbn; [reflexivity|]. now rewrite IHXs. Qed.

  Lemma expression_included Xs xs (e : expr N) a : Forall2 el Xs xs -> eclean M dbg (map Iv Xs) e -> efuns (monotone M) e -> ieval M dbg (map Iv Xs) e = Ret a ->
    exists v, seval M dbg xs e = Ret v /\ match a with Sc c => v = c | Iv Z => el Z v end.
  Proof. intros H C F E. exact (proj1 (eval_test_ok HP dbg (map Iv Xs) xs (inputs_stand Xs xs H)) e C F a E). Qed.
  Lemma test_included Xs xs (t : test N) c : Forall2 el Xs xs -> tclean M dbg (map Iv Xs) t -> tfuns (monotone M) t -> itest M dbg (map Iv Xs) t = Ret c ->
    exists b, stest M dbg xs t = Ret b /\ member (cset c) b.
  Proof.
    intros H C F E. pose proof (proj2 (eval_test_ok HP dbg (map Iv Xs) xs (inputs_stand Xs xs H)) t C F c E) as T. pose proof T as (_ & b & Eb & _).
    exists b. split; [exact Eb|]. exact (test_member HP dbg _ _ t c b T E Eb).
  Qed.
  Lemma program_included Xs xs (p : prog N) R : Forall2 el Xs xs -> well_formed (repeat true (length Xs)) [] p = true -> pclean M dbg (map Iv Xs) [] p ->
    pfuns (monotone M) p -> LangModel.irun M dbg (map Iv Xs) [] p ivl_default = Ret R ->
    exists o, srun M dbg xs [] p None = Ret o /\ (forall v, o = Some v -> el R v) /\ (complete p = true -> o <> None).
  Proof.
    intros H W C F E. rewrite <- inputs_kind in W.
    destruct (run_ok HP dbg p (map Iv Xs) xs [] [] ivl_default None R (inputs_stand Xs xs H) (Forall2_nil _) W C F (oks_default HP)) as (o & Eo & Ho & Hc); auto.
    - intros v Hv. discriminate Hv.
    - exists o. split; [exact Eo|]. split; [exact Ho|]. intros K. apply Hc. now left.
  Qed.
End Final.

Section Check.
  Context {N : num} (HN : num_laws N) (M : option (math N)) (dbg : bool).
  Let HO := nl_ord N HN.

  Definition aproper_b (x : arg N) : bool := o_le (alower x) (aupper x).
  Definition number_b (o : outcome (arg N)) : bool := match o with Ret x => aproper_b x | _ => true end.
  Definition domain1_b (u : unop) (x : arg N) : bool :=
    match u with USqrt | ULog => o_le n_zero (alower x) | UAsin | UAcos => false | _ => true end.
  Definition domain2_b (b : binop) (y : arg N) : bool :=
    match b with BDiv => aproper_b y && (o_lt n_zero (alower y) || o_lt (aupper y) n_zero) | _ => true end.
  Definition on {A : Type} (o : outcome A) (P : A -> bool) : bool := match o with Ret x => P x | _ => true end.
  Lemma on_ok {A : Type} (o : outcome A) P : on o P = true -> forall x, o = Ret x -> P x = true.
  Proof. intros H x ->. exact H. Qed.
  Fixpoint eclean_b (V : list (arg N)) (e : expr N) : bool :=
    number_b (ieval M dbg V e) &&
    match e with
    | EVar _ | ELit _ => true
    | EUn u e => eclean_b V e && on (ieval M dbg V e) (domain1_b u)
    | EBin b e f => eclean_b V e && eclean_b V f && on (ieval M dbg V f) (domain2_b b)
    | EIf t e f => tclean_b V t && eclean_b V e && eclean_b V f
    end
  with tclean_b (V : list (arg N)) (t : test N) : bool :=
    match t with
    | QRel _ e f => eclean_b V e && eclean_b V f
    | QNot t => tclean_b V t
    | QAnd t u | QOr t u => tclean_b V t && tclean_b V u
    end.
  Fixpoint pclean_b (V : list (arg N)) (cs : list (cond N)) (p : prog N) : bool :=
    match p with
    | PSkip => true
    | PAssign e => eclean_b V e
    | PSeq p q => pclean_b V cs p && pclean_b V cs q
    | PLet e p => eclean_b V e && on (ieval M dbg V e) (fun x => pclean_b (V ++ [x]) cs p)
    | PCall f p => pclean_b V cs f && on (LangModel.irun M dbg V cs f ivl_default) (fun R => pclean_b (V ++ [Iv R]) cs p)
    | PIf t p q =>
        tclean_b V t && on (itest M dbg V t) (fun c =>
        (if cpossible c then pclean_b V (c :: cs) p else true)
        && (if cpossible_not c then on (c_not dbg c) (fun c' => pclean_b V (c' :: cs) q) else true))
    | PConstrain x k p =>
        on (ilookup V x) (fun a => match a with Sc _ => true | Iv X => on (ikexp cs k) (fun c => on (constrain dbg x X c) (fun Z => pclean_b (V ++ [Iv Z]) cs p)) end)
    end.
  Lemma number_ok o : number_b o = true -> @number N o.
  Proof. intros H x ->. exact H. Qed.
  Lemma domain1_ok u x : domain1_b u x = true -> @domain1 N u x.
  Proof. destruct u; cbn; intros H; try exact I; try exact H; discriminate H. Qed.
  Lemma domain2_ok b y : domain2_b b y = true -> @domain2 N b y.
  Proof.
    destruct b; cbn; intros H; try exact I. apply andb_true_iff in H as [H K]. apply (zero_free_iff HN y H). apply orb_true_iff in K. exact K.
  Qed.
  Lemma clean_ok V : (forall e, eclean_b V e = true -> eclean M dbg V e) /\ (forall t, tclean_b V t = true -> tclean M dbg V t).
  Proof.
    apply expr_test_ind.
    - intros i H. cbn in H. apply andb_true_iff in H as [H _]. split; [exact (number_ok _ H)|exact I].
    - intros i H. cbn in H. apply andb_true_iff in H as [H _]. split; [exact (number_ok (Ret (Sc i)) H)|exact I].
    - intros u e IH H. apply andb_true_iff in H as [A B]. apply andb_true_iff in B as [B C]. split; [exact (number_ok _ A)|]. split; [exact (IH B)|].
      intros x Ex. apply domain1_ok. exact (on_ok _ _ C x Ex).
    - intros b e IHe f IHf H. apply andb_true_iff in H as [A B]. apply andb_true_iff in B as [B C]. apply andb_true_iff in B as [B D].
      split; [exact (number_ok _ A)|]. split; [exact (IHe B)|]. split; [exact (IHf D)|]. intros y Ey. apply domain2_ok. exact (on_ok _ _ C y Ey).
    - intros t IHt e IHe f IHf H. apply andb_true_iff in H as [A B]. apply andb_true_iff in B as [B C]. apply andb_true_iff in B as [B D].
      split; [exact (number_ok _ A)|]. split; [exact (IHt B)|]. split; [exact (IHe D)|exact (IHf C)].
    - intros r e IHe f IHf H. apply andb_true_iff in H as [A B]. split; [exact (IHe A)|exact (IHf B)].
    - intros t IH H. exact (IH H).
    - intros t IHt u IHu H. apply andb_true_iff in H as [A B]. split; [exact (IHt A)|exact (IHu B)].
    - intros t IHt u IHu H. apply andb_true_iff in H as [A B]. split; [exact (IHt A)|exact (IHu B)].
  Qed.
  Lemma pclean_ok p : forall V cs, pclean_b V cs p = true -> pclean M dbg V cs p.
  Proof.
    induction p as [|e|p IHp q IHq|e p IHp|f IHf p IHp|t p IHp q IHq|x k p IHp]; intros V cs H; cbn [pclean_b pclean] in *.
    - exact I.
    - now apply clean_ok.
    - apply andb_true_iff in H as [A B]. auto.
    - apply andb_true_iff in H as [A B]. split; [now apply clean_ok|]. intros x Ex. apply IHp. exact (on_ok _ _ B x Ex).
    - apply andb_true_iff in H as [A B]. split; [now apply IHf|]. intros x Ex. apply IHp. exact (on_ok _ _ B x Ex).
    - apply andb_true_iff in H as [A B]. split; [now apply clean_ok|]. intros c Ec. pose proof (on_ok _ _ B c Ec) as C. cbn beta in C. apply andb_true_iff in C as [C D].
      split; [intros E; rewrite E in C; now apply IHp|]. intros E c' Ec'. rewrite E in D. apply IHq. exact (on_ok _ _ D c' Ec').
    - intros X c Z EX Ec EZ. pose proof (on_ok _ _ H (Iv X) EX) as A. pose proof (on_ok _ _ A c Ec) as B. pose proof (on_ok _ _ B Z EZ) as C. now apply IHp.
  Qed.
End Check.
