(** Final forms of the interval lemmas, over the value types of the library. *)
From Coq Require Import Bool List ZArith.
From Flocq Require Import Core BinarySingleNaN.
From Verif Require Import Outcome SetModel Spec SetProofs Num NumLaws IntervalModel IvlSpec IvlProofs ArithProofs ArithProofs2 ArithProofs3 ArithProofs4 ArithProofs5
  Reach IntNum IntProofs FloatNum FloatProofs IterModel IterProofs ValueTypes.
Import ListNotations.

(** Turns a computed check of a returned value into a statement about it. *)
Lemma ret_witness {A} (m : outcome A) (P : A -> bool) :
  match m with Ret a => P a | _ => false end = true -> exists a, m = Ret a /\ P a = true.
Proof. destruct m; try discriminate. eauto. Qed.

Section Branches.
  Context {N : num} (HN : num_laws N).
  Let HO := nl_ord N HN.
  Implicit Types (X Y Z : ivl N).

  Lemma run_branches_holds (l : list (bset * ivl N)) (P : N -> Prop) X : Forall (fun p => proper (snd p)) l -> holds P X ->
    exists Z, run_branches X l = Ret Z /\ holds (fun v => P v \/ exists c Y, In (c, Y) l /\ member c true /\ el Y v) Z.
  Proof.
    revert P X. induction l as [|[c Y] l IH]; intros P X Hl HX.
    - exists X. split; [reflexivity|]. eapply holds_ext; [|exact HX]. intros v. split; [auto|]. intros [H|(c & Y & [] & _)]. exact H.
    - apply Forall_cons_iff in Hl as [HY Hl]. cbn in HY. cbn [run_branches]. destruct (possibly c) eqn:E.
      + destruct (holds_assign HN P (el Y) X Y HX (is_hull_self HO Y HY)) as (Z & HZ & Hh). unfold free_assign_partial. rewrite HZ. cbn [bind].
        destruct (IH (fun v => P v \/ el Y v) Z Hl (or_intror Hh)) as (W & HW & HhW). exists W. split; [exact HW|].
        eapply holds_ext; [|exact HhW]. intros v. apply bmember_iff in E. split.
        * intros [[H|H]|(c' & Y' & H1 & H2)]; [auto|right; exists c, Y; split; [now left|]; auto|right; exists c', Y'; split; [now right|exact H2]].
        * intros [H|(c' & Y' & [H1|H1] & H2)]; [auto|injection H1 as <- <-; left; right; tauto|right; eauto].
      + cbn [bind]. destruct (IH P X Hl HX) as (W & HW & HhW). exists W. split; [exact HW|]. eapply holds_ext; [|exact HhW]. intros v. split.
        * intros [H|(c' & Y' & H1 & H2)]; [auto|right; exists c', Y'; split; [now right|exact H2]].
        * intros [H|(c' & Y' & [H1|H1] & H2 & H3)]; [auto| |right; eauto]. injection H1 as <- <-. apply bmember_iff in H2. unfold possibly in E. rewrite E in H2. discriminate.
  Qed.
  Lemma run_branches_default l : Forall (fun p => proper (snd p)) l ->
    exists Z, run_branches (@ivl_default N) l = Ret Z
      /\ ((exists c Y, In (c, Y) l /\ member c true) -> is_hull (fun v => exists c Y, In (c, Y) l /\ member c true /\ el Y v) Z)
      /\ ((forall c Y, In (c, Y) l -> ~ member c true) -> Z = ivl_default).
  Proof.
    intros Hl. destruct (run_branches_holds l (fun _ => False) _ Hl holds_default) as (Z & HZ & [[H1 H2]|H]); exists Z; (split; [exact HZ|]); split.
    - intros (c & Y & Hi & Hm). rewrite Forall_forall in Hl. pose proof (Hl _ Hi) as HY. exfalso. apply (H2 (lo Y)). right. exists c, Y. split; [exact Hi|]. split; [exact Hm|]. exact (el_lower HO Y HY).
    - auto.
    - intros _. eapply is_hull_ext; [|exact H]. cbn. intros v. tauto.
    - intros Hn. destruct H as (_ & (v & [[]|(c & Y & Hi & Hm & _)] & _) & _). destruct (Hn c Y Hi Hm).
  Qed.
End Branches.

Section Final.
  Context (N : num) (HV : value_type N).
  Let HN := value_type_laws N HV.
  Let HO := nl_ord N HN.
  Implicit Types (X Y Z : ivl N) (x y : arg N).

  Definition encl (f : N -> N -> outcome N) (F : outcome (ivl N)) x y : Prop :=
    ~ nan_pair f x y ->
    (defined2 f x y -> exists Z, F = Ret Z) /\ (forall Z, F = Ret Z -> defined2 f x y /\ is_hull (img2 f x y) Z).
  Lemma op_ok_encl f F x y : op_ok f F x y -> encl f F x y.
  Proof. intros [H1 H2] Hn. split; [exact H1|]. intros Z HZ. destruct (H2 Z HZ) as (A & _ & B). auto. Qed.
  Lemma div_zero_free' dbg x y : aproper x -> aproper y -> ~ (exists v, ael y v /\ is_zero v) -> encl n_div (idiv dbg x y) x y.
  Proof. intros Hx Hy Hz. apply op_ok_encl, (div_zero_free HN dbg x y Hx Hy). now apply (zero_free_iff HN y Hy). Qed.
  Lemma isotonic_div' dbg x y x' y' : aproper x -> aproper y -> asubset x x' -> asubset y y' ->
    ~ (exists v, ael y' v /\ is_zero v) \/ (exists v w, ael y' v /\ ael y' w /\ o_lt v n_zero = true /\ o_lt n_zero w = true) ->
    forall Z', idiv dbg x' y' = Ret Z' -> ~ nan_ivl Z' -> exists Z, idiv dbg x y = Ret Z /\ proper Z /\ subset Z Z'.
  Proof.
    intros Hx Hy Sx Sy H. apply (isotonic_div HN dbg x y x' y' Hx Hy Sx Sy). destruct H as [H|(v & w & [V1 V2] & [W1 W2] & Hv & Hw)].
    - left. apply (zero_free_iff HN); [|exact H]. exact (asubset_aproper HO y y' Hy Sy).
    - right. apply andb_true_iff. split; [clear - HO V1 Hv; ord HO|clear - HO W2 Hw; ord HO].
  Qed.
  Lemma nan_exact f F x y : op_ok f F x y -> n_float N = true -> (forall u v : N, exists s, f u v = Ret s) -> (nan_pair f x y \/ ~ nan_pair f x y) ->
    exists Z, F = Ret Z /\ (nan_ivl Z <-> nan_pair f x y) /\ (~ nan_pair f x y -> proper Z).
  Proof.
    intros [H1 H2] Hf Hd D. destruct H1 as (Z & HZ); [intros u v _ _; apply Hd|]. destruct (H2 Z HZ) as (_ & A & B). exists Z. split; [exact HZ|].
    assert (C : ~ nan_pair f x y -> proper Z) by (intros Hn; exact (is_hull_proper HO _ _ (B Hn))). split; [|exact C].
    split; [|exact A]. intros [Hl _]. destruct D as [D|D]; [exact D|]. exfalso. apply (nan_iff HN) in Hl. apply Hl. specialize (C D). exact (el_ok HO Z _ (el_lower HO Z C)).
  Qed.
  Lemma nan_report dbg x y : n_float N = true -> (forall f, In f [n_add; n_sub; n_mul; @n_div N] -> forall u v : N, exists s, f u v = Ret s) -> aproper x -> aproper y ->
    (exists Z, iadd dbg x y = Ret Z /\ (nan_ivl Z <-> nan_pair n_add x y) /\ (~ nan_pair n_add x y -> proper Z))
    /\ (exists Z, isub dbg x y = Ret Z /\ (nan_ivl Z <-> nan_pair n_sub x y) /\ (~ nan_pair n_sub x y -> proper Z))
    /\ (exists Z, imul dbg x y = Ret Z /\ (nan_ivl Z <-> nan_pair n_mul x y) /\ (~ nan_pair n_mul x y -> proper Z))
    /\ (exists Z, idiv dbg x y = Ret Z /\ (nan_ivl Z <-> nan_pair n_div x y) /\ (~ nan_pair n_div x y -> proper Z)).
  Proof.
    intros Hf Hd Hx Hy.
    split; [|split; [|split]].
    - apply nan_exact; auto using (add_op_ok HN dbg x y Hx Hy); [apply Hd; cbn; auto|]. rewrite <- (add_nan_iff HN x y Hx Hy). destruct (n_float N && _); auto.
    - apply nan_exact; auto using (sub_op_ok HN dbg x y Hx Hy); [apply Hd; cbn; auto|]. rewrite <- (sub_nan_iff HN x y Hx Hy). destruct (n_float N && _); auto.
    - apply nan_exact; auto using (mul_op_ok HN dbg x y Hx Hy); [apply Hd; cbn; auto|]. rewrite <- (mul_nan_iff HN x y Hx Hy). destruct (n_float N && _); auto.
    - destruct (div_nan HN dbg x y Hx Hy Hf) as (Z & HZ & A & B). exists Z. split; [exact HZ|]. split; [|exact B]. split; [|exact A].
      intros [Hl _]. assert (D : nan_pair n_div x y \/ ~ nan_pair n_div x y).
      { rewrite (div_nan_iff HN x y Hx Hy Hf).
        destruct ((is_ninf (alower x) || is_pinf (aupper x)) && (is_ninf (alower y) || is_pinf (aupper y))), ((o_le (alower x) n_zero && o_le n_zero (aupper x)) && (o_le (alower y) n_zero && o_le n_zero (aupper y)));
          auto. right. intros [H|H]; discriminate H. }
      destruct D as [D|D]; [exact D|]. exfalso. apply (nan_iff HN) in Hl. apply Hl. exact (el_ok HO Z _ (el_lower HO Z (B D))).
  Qed.
End Final.
