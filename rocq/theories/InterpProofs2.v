(** Linear interpolation between two adjacent points. *)
From Coq Require Import Bool List Arith ZArith Lia.
From Verif Require Import Outcome SetModel Spec Num NumLaws IntervalModel IvlSpec IvlProofs ArithProofs ArithProofs2 MathSpec LangModel InterpModel SegProofs.
Import ListNotations.
Open Scope nat_scope.

Section Segment.
  Context {N : num} (HN : num_laws N) (HS : seg_laws N) (dbg : bool).
  Let HO := nl_ord N HN.

  Definition convex (Q : N -> Prop) : Prop := forall a b c, Q a -> Q c -> o_le a b = true -> o_le b c = true -> Q b.
  Lemma op_step (Q : N -> Prop) f F (x y : arg N) : op_ok f F x y -> aproper x -> aproper y -> convex Q ->
    (forall u v, ael x u -> ael y v -> exists s, f u v = Ret s /\ ok s /\ Q s) ->
    exists Z, F = Ret Z /\ proper Z /\ (forall s, el Z s -> Q s) /\ (forall u v, ael x u -> ael y v -> exists s, f u v = Ret s /\ el Z s) /\ is_hull (img2 f x y) Z.
  Proof.
    intros [O1 O2] Px Py HQ H. destruct O1 as (Z & HZ); [intros u v Hu Hv; destruct (H u v Hu Hv) as (s & Hs & _); eauto|].
    exists Z. split; [exact HZ|]. destruct (O2 Z HZ) as (_ & _ & Hh).
    assert (K : is_hull (img2 f x y) Z).
    { apply Hh. intros (u & v & s & Hu & Hv & Hs & Hn). destruct (H u v Hu Hv) as (s' & Hs' & Ho & _). rewrite Hs in Hs'. injection Hs' as <-.
      apply (nan_iff HN) in Hn. now apply Hn. }
    split; [exact (is_hull_proper HO _ _ K)|]. pose proof K as K0. destruct K as (K1 & (p & (pu & pv & Hpu & Hpv & Ep) & Lp) & (q & (qu & qv & Hqu & Hqv & Eq) & Lq)). split.
    - intros s [S1 S2]. destruct (H _ _ Hpu Hpv) as (p' & Ep' & _ & Qp), (H _ _ Hqu Hqv) as (q' & Eq' & _ & Qq).
      rewrite Ep in Ep'. injection Ep' as <-. rewrite Eq in Eq'. injection Eq' as <-. apply (HQ p s q Qp Qq); [clear - HO S1 Lp|clear - HO S2 Lq]; ord HO.
    - split; [|exact K0]. intros u v Hu Hv. destruct (H u v Hu Hv) as (s & Hs & _). exists s. split; [exact Hs|]. apply K1. exists u, v. auto.
  Qed.
  (** Both bounds satisfy [Q], up to the sign of zero. *)
  Definition ends (Q : N -> Prop) (Z : ivl N) : Prop := (exists s, Q s /\ o_eq s (lo Z) = true) /\ (exists t, Q t /\ o_eq t (hi Z) = true).
  Lemma op_ends (Q : N -> Prop) (g : N -> N -> outcome N) (A : ivl N) c Z : proper A -> ok c -> is_hull (fun s => exists u v, el A u /\ o_eq c v = true /\ g u v = Ret s) Z ->
    (forall u v, el A u -> o_eq c v = true -> exists s, g u v = Ret s /\ ok s) ->
    ((forall u u' v v' s s', el A u -> el A u' -> o_eq c v = true -> o_eq c v' = true -> o_le u u' = true -> g u v = Ret s -> g u' v' = Ret s' -> ok s -> ok s' -> o_le s s' = true)
     \/ (forall u u' v v' s s', el A u -> el A u' -> o_eq c v = true -> o_eq c v' = true -> o_le u u' = true -> g u v = Ret s -> g u' v' = Ret s' -> ok s -> ok s' -> o_le s' s = true)) ->
    ends Q A -> ends (fun s => exists u, Q u /\ g u c = Ret s) Z.
  Proof.
    unfold proper. intros PA Oc (H1 & (p & (pu & pv & Hpu & Hpv & Ep) & Lp) & (q & (qu & qv & Hqu & Hqv & Eq) & Lq)) Hd Hm [(a & Qa & Ea) (b & Qb & Eb)].
    assert (Ha : el A a) by (split; clear - HO Ea PA; ord HO). assert (Hb : el A b) by (split; clear - HO Eb PA; ord HO).
    assert (Oc' : o_eq c c = true) by (clear - HO Oc; unfold ok in Oc; ord HO).
    destruct (Hd a c Ha Oc') as (s & Es & Os), (Hd b c Hb Oc') as (t & Et & Ot), (Hd pu pv Hpu Hpv) as (p' & Ep' & Op), (Hd qu qv Hqu Hqv) as (q' & Eq' & Oq).
    rewrite Ep in Ep'. injection Ep' as <-. rewrite Eq in Eq'. injection Eq' as <-.
    assert (Hs : el Z s) by (apply H1; exists a, c; auto). assert (Ht : el Z t) by (apply H1; exists b, c; auto).
    assert (L : forall u, el A u -> o_le a u = true /\ o_le u b = true) by (intros u [U1 U2]; clear - HO U1 U2 Ea Eb; split; ord HO).
    destruct (L pu Hpu) as [Lp1 Lp2], (L qu Hqu) as [Lq1 Lq2]. destruct Hs as [Hs1 Hs2], Ht as [Ht1 Ht2]. destruct Hm as [Hm|Hm].
    - pose proof (Hm a pu c pv s p Ha Hpu Oc' Hpv Lp1 Es Ep Os Op) as M1. pose proof (Hm qu b qv c q t Hqu Hb Hqv Oc' Lq2 Eq Et Oq Ot) as M2.
      split; [exists s; split; [eauto|]; clear - HO M1 Lp Hs1; ord HO|exists t; split; [eauto|]; clear - HO M2 Lq Ht2; ord HO].
    - pose proof (Hm pu b pv c p t Hpu Hb Hpv Oc' Lp2 Ep Et Op Ot) as M1. pose proof (Hm a qu c qv s q Ha Hqu Oc' Hqv Lq1 Es Eq Os Oq) as M2.
      split; [exists t; split; [eauto|]; clear - HO M1 Lp Ht1; ord HO|exists s; split; [eauto|]; clear - HO M2 Lq Hs2; ord HO].
  Qed.

  Lemma ael_sc (v u : N) : ael (Sc v) u -> o_eq v u = true.
  Proof. intros [H1 H2]. cbn in *. clear - HO H1 H2. ord HO. Qed.
  Lemma sc_proper (v : N) : ok v -> aproper (Sc v). Proof. exact (fun H => H). Qed.
  Lemma finite_ok (v : N) : finite v -> ok v.
  Proof. intros [H _]. unfold nan in H. apply not_false_is_true in H. clear - HO H. unfold ok. ord HO. Qed.

  Lemma img_right (f : N -> N -> outcome N) (A : ivl N) (c s : N) : img2 f (Iv A) (Sc c) s <-> exists u v, el A u /\ o_eq c v = true /\ f u v = Ret s.
  Proof.
    split; intros (u & v & Hu & Hv & E); exists u, v; (split; [exact Hu|]; split; [|exact E]); [now apply ael_sc|]. split; cbn; clear - HO Hv; ord HO.
  Qed.
  Lemma img_left (A : ivl N) (c s : N) : img2 n_add (Sc c) (Iv A) s <-> exists u v, el A u /\ o_eq c v = true /\ n_add u v = Ret s.
  Proof.
    split.
    - intros (v & u & Hv & Hu & E). exists u, v. split; [exact Hu|]. split; [now apply ael_sc|]. now rewrite (nl_add_comm N HN).
    - intros (u & v & Hu & Hv & E). exists v, u. split; [split; cbn; clear - HO Hv; ord HO|]. split; [exact Hu|]. now rewrite (nl_add_comm N HN).
  Qed.

  Lemma convex_range (a b : N) : convex (fun v => o_le a v = true /\ o_le v b = true).
  Proof. intros u v w [U1 U2] [W1 W2] L1 L2. clear - HO U1 W2 L1 L2. split; ord HO. Qed.
  Lemma convex_between (e : N) : convex (between_0 e).
  Proof. intros u v w U W L1 L2. unfold between_0 in *. clear - HO U W L1 L2. destruct U as [[U1 U2]|[U1 U2]], W as [[W1 W2]|[W1 W2]]; [left|left|right|right]; split; ord HO. Qed.
  Lemma convex_ok : convex (@ok N).
  Proof. intros u v w _ _ L1 _. unfold ok. clear - HO L1. ord HO. Qed.

  Variables (x0 x1 y0 y1 dx dy : N).
  Hypotheses (Hx : o_lt x0 x1 = true) (Edx : n_sub x1 x0 = Ret dx) (Fdx : finite dx) (Edy : n_sub y1 y0 = Ret dy) (Fdy : finite dy).

  Lemma segment_ok XC : proper XC -> o_le x0 (lo XC) = true -> o_le (hi XC) x1 = true ->
    exists Z, ieval None dbg [Iv XC] (segment x0 x1 y0 y1) = Ret (Iv Z) /\ proper Z
      /\ (forall x, el XC x -> exists y, seval None dbg [x] (segment x0 x1 y0 y1) = Ret y /\ el Z y)
      /\ ends (fun y => exists x, el XC x /\ seval None dbg [x] (segment x0 x1 y0 y1) = Ret y) Z.
  Proof.
    intros PX L1 L2. destruct (sl_sub N HS x0 x1 dx Hx Edx Fdx) as [Hd Hsub].
    assert (Ox0 : ok x0) by (pose proof Hx as Hx'; clear - HO Hx'; ord HO).
    assert (Hy0 : ok y0). { apply (nl_strict2 N HN y1 y0 dy); [tauto|]. now apply finite_ok. }
    destruct (op_step (fun z => o_le n_zero z = true /\ o_le z dx = true) n_sub _ (Iv XC) (Sc x0) (sub_op_ok HN dbg (Iv XC) (Sc x0) PX (sc_proper _ Ox0)) PX (sc_proper _ Ox0) (convex_range _ _)) as (A & EA & PA & QA & IA & KA).
    { intros u v [U1 U2] Hv. cbn in U1, U2. apply ael_sc in Hv. destruct (Hsub u v Hv) as (z & Ez & Z1 & Z2); [clear - HO U1 L1; ord HO|clear - HO U2 L2; ord HO|].
      exists z. split; [exact Ez|]. split; [clear - HO Z1; unfold ok; ord HO|tauto]. }
    assert (Pd : aproper (Sc dx)) by now apply sc_proper, finite_ok.
    destruct (op_step (fun z => o_le n_zero z = true /\ o_le z n_one = true) n_div _ (Iv A) (Sc dx) (div_zero_free HN dbg (Iv A) (Sc dx) PA Pd (or_introl Hd)) PA Pd (convex_range _ _)) as (T & ET & PT & QT & IT & KT).
    { intros u v Hu Hv. apply ael_sc in Hv. destruct (QA u Hu) as [U1 U2]. destruct (sl_div N HS dx v u Hd Fdx Hv U1 U2) as (t & Et & T1 & T2).
      exists t. split; [exact Et|]. split; [clear - HO T1; unfold ok; ord HO|tauto]. }
    assert (Pe : aproper (Sc dy)) by now apply sc_proper, finite_ok.
    destruct (op_step (between_0 dy) n_mul _ (Iv T) (Sc dy) (mul_op_ok HN dbg (Iv T) (Sc dy) PT Pe) PT Pe (convex_between _)) as (P & EP & PP & QP & IP & KP).
    { intros u v Hu Hv. apply ael_sc in Hv. destruct (QT u Hu) as [U1 U2]. destruct (sl_mul N HS u dy v U1 U2 Fdy Hv) as (p & Ep & Hp).
      exists p. split; [exact Ep|]. split; [|exact Hp]. destruct Hp as [[P1 P2]|[P1 P2]]; [clear - HO P1|clear - HO P2]; unfold ok; ord HO. }
    destruct (op_step (@ok N) n_add _ (Sc y0) (Iv P) (add_op_ok HN dbg (Sc y0) (Iv P) (sc_proper _ Hy0) PP) (sc_proper _ Hy0) PP convex_ok) as (Z & EZ & PZ & _ & IZ & KZ).
    { intros u v Hu Hv. apply ael_sc in Hu. destruct (sl_add N HS y0 u y1 dy v Edy Fdy Hu (QP v Hv)) as (s & Es & Hs). exists s. auto. }
    exists Z. split.
    - unfold segment. cbn [ieval ilookup nth_error bind lift2 sbin]. cbn [ibin]. rewrite EA. cbn [bind]. rewrite Edx. cbn [bind lift2 ibin]. rewrite ET. cbn [bind]. rewrite Edy. cbn [bind lift2 ibin]. rewrite EP. cbn [bind lift2 ibin]. rewrite EZ. reflexivity.
    - split; [exact PZ|].
      assert (SV : forall x a t p y, n_sub x x0 = Ret a -> n_div a dx = Ret t -> n_mul t dy = Ret p -> n_add y0 p = Ret y -> seval None dbg [x] (segment x0 x1 y0 y1) = Ret y).
      { intros x a t p y Ea Et Ep Ey. unfold segment. cbn [seval slookup nth_error bind sbin]. rewrite Ea. cbn [bind]. rewrite Edx. cbn [bind]. rewrite Et. cbn [bind]. rewrite Edy. cbn [bind]. rewrite Ep. cbn [bind]. exact Ey. }
      assert (R : forall v : N, ok v -> ael (Sc v) v) by (intros v Hv; split; exact Hv). split.
      + intros x Hxx.
        destruct (IA x x0 Hxx (R x0 Ox0)) as (a & Ea & Ha). destruct (IT a dx Ha (R dx (finite_ok dx Fdx))) as (t & Et & Ht).
        destruct (IP t dy Ht (R dy (finite_ok dy Fdy))) as (p & Ep & Hp). destruct (IZ y0 p (R y0 Hy0) Hp) as (y & Ey & Hy). exists y. split; [|exact Hy]. exact (SV x a t p y Ea Et Ep Ey).
      + assert (SC : forall c v : N, o_eq c v = true -> ael (Sc c) v) by (intros c v H; split; cbn; clear - HO H; ord HO).
        assert (EX : ends (el XC) XC). { unfold proper in PX. split; [exists (lo XC)|exists (hi XC)]; (split; [first [exact (el_lower HO XC PX)|exact (el_upper HO XC PX)]|clear - HO PX; ord HO]). }
        assert (EO : forall c v v' : N, o_eq c v = true -> o_eq c v' = true -> o_le v v' = true) by (intros c v v' H1 H2; clear - HO H1 H2; ord HO).
        assert (XA : ends (fun a => exists x, el XC x /\ n_sub x x0 = Ret a) A).
        { apply (op_ends _ n_sub XC x0 A PX Ox0 (is_hull_ext _ _ _ (img_right n_sub XC x0) KA)); [|left|exact EX].
          - intros u v Hu Hv. destruct (IA u v Hu (SC _ _ Hv)) as (s & Es & Hs). exists s. split; [exact Es|exact (el_ok HO _ _ Hs)].
          - intros u u' v v' s s' _ _ Hv Hv' L Es Es' Os Os'. exact (nl_sub_mono N HN u u' v' v s s' L (EO _ _ _ Hv' Hv) Es Es' Os Os'). }
        assert (XT : ends (fun t => exists a, (exists x, el XC x /\ n_sub x x0 = Ret a) /\ n_div a dx = Ret t) T).
        { apply (op_ends _ n_div A dx T PA (finite_ok dx Fdx) (is_hull_ext _ _ _ (img_right n_div A dx) KT)); [|left|exact XA].
          - intros u v Hu Hv. destruct (IT u v Hu (SC _ _ Hv)) as (s & Es & Hs). exists s. split; [exact Es|exact (el_ok HO _ _ Hs)].
          - intros u u' v v' s s' Hu Hu' Hv Hv' L Es Es' Os Os'. destruct (IT u' v Hu' (SC _ _ Hv)) as (r & Er & Hr). apply (el_ok HO) in Hr.
            assert (Pv : o_lt n_zero v = true) by (clear - HO Hv Hd; ord HO). assert (Pv' : o_lt n_zero v' = true) by (clear - HO Hv' Hd; ord HO).
            pose proof (nl_div_mono N HN u u' v s r L Pv Es Er Os Hr) as L3. pose proof (nl_div_pos N HN u' v' v s' r (proj1 (QA u' Hu')) (EO _ _ _ Hv' Hv) (or_introl Pv') Es' Er Os' Hr) as L4.
            clear - HO L3 L4. ord HO. }
        assert (XP : ends (fun p => exists t, (exists a, (exists x, el XC x /\ n_sub x x0 = Ret a) /\ n_div a dx = Ret t) /\ n_mul t dy = Ret p) P).
        { apply (op_ends _ n_mul T dy P PT (finite_ok dy Fdy) (is_hull_ext _ _ _ (img_right n_mul T dy) KP)); [| |exact XT].
          - intros u v Hu Hv. destruct (IP u v Hu (SC _ _ Hv)) as (s & Es & Hs). exists s. split; [exact Es|exact (el_ok HO _ _ Hs)].
          - assert (Z0 : ok (@n_zero N)) by (destruct (nl_zero N HN) as [Z1 _]; clear - HO Z1; unfold ok; ord HO).
            destruct (ol_total _ HO n_zero dy Z0 (finite_ok dy Fdy)) as [S|S]; [left|right]; intros u u' v v' s s' Hu Hu' Hv Hv' L Es Es' Os Os';
              destruct (IP u' v Hu' (SC _ _ Hv)) as (r & Er & Hr); apply (el_ok HO) in Hr.
            + assert (Pv : o_le n_zero v = true) by (clear - HO Hv S; ord HO). pose proof (nl_mul_mono N HN u u' v s r L Pv Es Er Os Hr) as L3.
              rewrite (nl_mul_comm N HN) in Er, Es'. pose proof (nl_mul_mono N HN v v' u' r s' (EO _ _ _ Hv Hv') (proj1 (QT u' Hu')) Er Es' Hr Os') as L4. clear - HO L3 L4. ord HO.
            + assert (Pv : o_le v n_zero = true) by (clear - HO Hv S; ord HO). pose proof (nl_mul_anti N HN u u' v s r L Pv Es Er Os Hr) as L3.
              rewrite (nl_mul_comm N HN) in Er, Es'. pose proof (nl_mul_mono N HN v' v u' s' r (EO _ _ _ Hv' Hv) (proj1 (QT u' Hu')) Es' Er Os' Hr) as L4. clear - HO L3 L4. ord HO. }
        assert (XZ : ends (fun y => exists p, (exists t, (exists a, (exists x, el XC x /\ n_sub x x0 = Ret a) /\ n_div a dx = Ret t) /\ n_mul t dy = Ret p) /\ n_add p y0 = Ret y) Z).
        { apply (op_ends _ n_add P y0 Z PP Hy0 (is_hull_ext _ _ _ (img_left P y0) KZ)); [|left|exact XP].
          - intros u v Hu Hv. destruct (IZ v u (SC _ _ Hv) Hu) as (s & Es & Hs). exists s. rewrite (nl_add_comm N HN). split; [exact Es|exact (el_ok HO _ _ Hs)].
          - intros u u' v v' s s' _ _ Hv Hv' L Es Es' Os Os'. exact (nl_add_mono N HN u u' v v' s s' L (EO _ _ _ Hv Hv') Es Es' Os Os'). }
        assert (G : forall y, (exists p, (exists t, (exists a, (exists x, el XC x /\ n_sub x x0 = Ret a) /\ n_div a dx = Ret t) /\ n_mul t dy = Ret p) /\ n_add p y0 = Ret y) ->
          exists x, el XC x /\ seval None dbg [x] (segment x0 x1 y0 y1) = Ret y).
        { intros y (p & (t & (a & (x & Hxx & Ea) & Et) & Ep) & Ey). exists x. split; [exact Hxx|]. rewrite (nl_add_comm N HN) in Ey. exact (SV x a t p y Ea Et Ep Ey). }
        destruct XZ as [(s & Hs & Ls) (t & Ht & Lt)]. split; [exists s|exists t]; auto.
  Qed.
End Segment.
