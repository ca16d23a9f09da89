(** Linear interpolation where two adjacent points coincide: the interval computed is NaN and does not affect the result. *)
From Coq Require Import Bool List Arith ZArith Lia.
From Verif Require Import Outcome SetModel Spec Num NumLaws IntervalModel IvlSpec IvlProofs ArithProofs ArithProofs2 MathSpec LangModel InterpModel SegProofs InterpProofs2.
Import ListNotations.
Open Scope nat_scope.

Section Nan.
  Context {N : num} (HN : num_laws N) (HS : seg_laws N) (dbg : bool).
  Let HO := nl_ord N HN.

  Lemma nan_le_l (u v : N) : nan u -> o_le u v = false.
  Proof. rewrite (nan_iff HN). intros H. apply not_true_is_false. intros L. apply H. exact (proj1 (ol_ok _ HO _ _ L)). Qed.
  Lemma nan_le_r (u v : N) : nan v -> o_le u v = false.
  Proof. rewrite (nan_iff HN). intros H. apply not_true_is_false. intros L. apply H. exact (proj2 (ol_ok _ HO _ _ L)). Qed.
  Lemma nan_lt (u v : N) : nan u \/ nan v -> o_lt u v = false.
  Proof. intros H. rewrite (ol_lt _ HO). destruct H as [H|H]; [rewrite (nan_le_l u v H)|rewrite (nan_le_r u v H)]; reflexivity. Qed.
  Lemma nan_eq (u v : N) : nan u -> o_eq u v = false.
  Proof. intros H. now rewrite (ol_eq _ HO), (nan_le_l u v H). Qed.
  Lemma nan_inf (u : N) : nan u -> is_ninf u = false /\ is_pinf u = false.
  Proof. intros H. unfold is_ninf, is_pinf. rewrite !nan_eq by exact H. now rewrite andb_false_r. Qed.
  Lemma nan_assigned (T : ivl N) : nan_ivl T -> assigned T = true.
  Proof. intros [H _]. unfold assigned. now rewrite nan_lt by tauto. Qed.
  Lemma nan_op (f : N -> N -> outcome N) a b s : (forall z, f a b = Ret z -> n_add a b = Ret z \/ n_sub a b = Ret z \/ n_mul a b = Ret z \/ n_div a b = Ret z) -> nan a \/ nan b -> f a b = Ret s -> nan s.
  Proof.
    intros Hf H E. rewrite !(nan_iff HN) in *. intros K. destruct (nl_strict2 N HN a b s (Hf s E) K) as [K1 K2]. tauto.
  Qed.

  Lemma nan_mul (T : ivl N) b : n_float N = true -> nan_ivl T -> exists P, imul dbg (Iv T) (Sc b) = Ret P /\ nan_ivl P.
  Proof.
    intros Hf [H1 H2]. unfold imul. cbn [aassigned alower aupper acontains]. rewrite (nan_assigned T (conj H1 H2)). replace (expects_debug dbg (true && true)) with (Ret tt) by now destruct dbg.
    cbn [bind]. destruct (nan_inf (lo T) H1) as [-> _], (nan_inf (hi T) H2) as [_ ->]. unfold contains. rewrite (nan_le_l (lo T)) by exact H1. rewrite andb_false_r. cbn [andb orb].
    destruct (nl_float_total N HN Hf (lo T) b) as (_ & _ & _ & _ & (s & Es) & _), (nl_float_total N HN Hf (hi T) b) as (_ & _ & _ & _ & (t & Et) & _). rewrite Es, Et. cbn [bind].
    assert (Ns : nan s) by (apply (nan_op n_mul (lo T) b s); [tauto|now left|exact Es]). assert (Nt : nan t) by (apply (nan_op n_mul (hi T) b t); [tauto|now left|exact Et]).
    unfold hull2, mk, omin, omax. rewrite (nan_lt t s), (nan_lt s t) by tauto. rewrite (nan_lt s s) by tauto. cbn. eexists. split; [reflexivity|]. split; assumption.
  Qed.
  Lemma nan_add (a : N) (P : ivl N) : n_float N = true -> nan_ivl P -> exists Z, iadd dbg (Sc a) (Iv P) = Ret Z /\ nan_ivl Z.
  Proof.
    intros Hf [H1 H2]. unfold iadd. cbn [aassigned alower aupper]. rewrite (nan_assigned P (conj H1 H2)). replace (expects_debug dbg (true && true)) with (Ret tt) by now destruct dbg.
    cbn [bind]. destruct (nan_inf (lo P) H1) as [-> _], (nan_inf (hi P) H2) as [_ ->]. rewrite !andb_false_r. cbn [andb orb]. rewrite ?andb_false_r.
    destruct (nl_float_total N HN Hf a (lo P)) as (_ & _ & (s & Es) & _), (nl_float_total N HN Hf a (hi P)) as (_ & _ & (t & Et) & _). rewrite Es, Et. cbn [bind].
    assert (Ns : nan s) by (apply (nan_op n_add a (lo P) s); [tauto|now right|exact Es]). assert (Nt : nan t) by (apply (nan_op n_add a (hi P) t); [tauto|now right|exact Et]).
    unfold mk. rewrite nan_lt by tauto. eexists. split; [reflexivity|]. split; assumption.
  Qed.
  Lemma nan_assign (R Z : ivl N) : nan_ivl Z -> free_assign_partial R Z = Ret R.
  Proof.
    intros [H1 H2]. unfold free_assign_partial, iassign, assign_bounds, omin, omax. rewrite (nan_assigned Z (conj H1 H2)). cbn. rewrite !nan_lt by tauto. now destruct R.
  Qed.

  Lemma segment_same (x0 x1 y0 y1 dx dy : N) (XC : ivl N) : n_float N = true -> o_eq x0 x1 = true -> n_sub x1 x0 = Ret dx -> finite dx -> n_sub y1 y0 = Ret dy ->
    proper XC -> o_le x0 (lo XC) = true -> o_le (hi XC) x1 = true -> exists Z, ieval None dbg [Iv XC] (segment x0 x1 y0 y1) = Ret (Iv Z) /\ nan_ivl Z.
  Proof.
    intros Hf Hx Edx Fdx Edy PX L1 L2. unfold proper in PX. destruct (sl_same N HS x0 x1 dx Hx Edx Fdx) as [Zd Hsub].
    assert (Ox0 : ok x0) by (clear - HO Hx; unfold ok; ord HO).
    assert (Px : aproper (Sc x0)) by exact Ox0.
    assert (CZ : convex (@is_zero N)).
    { intros u v w U W H1 H2. unfold is_zero in *. clear - HO U W H1 H2. ord HO. }
    destruct (op_step HN (@is_zero N) n_sub _ (Iv XC) (Sc x0) (sub_op_ok HN dbg (Iv XC) (Sc x0) PX Px) PX Px CZ) as (A & EA & PA & QA & IA).
    { intros u v [U1 U2] Hv. cbn in U1, U2. apply (ael_sc HN) in Hv. destruct (Hsub u v Hv) as (z & Ez & Hz); [clear - HO L1 L2 U1 U2 Hx; ord HO|].
      exists z. split; [exact Ez|]. split; [|exact Hz]. unfold is_zero, ok in *. clear - HO Hz. ord HO. }
    assert (Pd : aproper (Sc dx)) by (apply (finite_ok HN); exact Fdx).
    destruct (div_nan HN dbg (Iv A) (Sc dx) PA Pd Hf) as (T & ET & HT & _).
    assert (NT : nan_ivl T).
    { apply HT. apply (div_nan_iff HN (Iv A) (Sc dx) PA Pd Hf). right. cbn [alower aupper]. pose proof (QA (lo A) (el_lower HO A PA)) as Q1. pose proof (QA (hi A) (el_upper HO A PA)) as Q2.
      unfold is_zero in *. rewrite !andb_true_iff. clear - HO Q1 Q2 Zd. repeat split; ord HO. }
    destruct (nan_mul T dy Hf NT) as (P & EP & NP). destruct (nan_add y0 P Hf NP) as (Z & EZ & NZ). exists Z. split; [|exact NZ].
    unfold segment. cbn [ieval ilookup nth_error bind lift2 sbin]. cbn [ibin]. rewrite EA. cbn [bind]. rewrite Edx. cbn [bind lift2 ibin]. rewrite ET. cbn [bind]. rewrite Edy. cbn [bind lift2 ibin].
    rewrite EP. cbn [bind lift2 ibin]. rewrite EZ. reflexivity.
  Qed.
End Nan.
