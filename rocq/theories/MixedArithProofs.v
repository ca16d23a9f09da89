(** Arithmetic and comparisons of operands of different value types. *)
From Coq Require Import ZArith Bool.
From Verif Require Import Outcome SetModel Spec SetProofs Num NumLaws IntervalModel IvlSpec IvlProofs ArithProofs ArithProofs2 MixedModel MixedArithModel MixedArithSpec ConvProofs.

(** ** Where the end points of a result come from *)
Section Corners.
  Context {N : num} (HN : num_laws N).
  Let HO := nl_ord N HN.
  Implicit Types (x y : arg N).

  Definition corner (f : N -> N -> outcome N) x y (z : N) : Prop :=
    exists a b, (a = alower x \/ a = aupper x) /\ (b = alower y \/ b = aupper y) /\ f a b = Ret z.

  Lemma omin_or (p q : N) : omin p q = p \/ omin p q = q. Proof. unfold omin. destruct (o_lt q p); auto. Qed.
  Lemma omax_or (p q : N) : omax p q = p \/ omax p q = q. Proof. unfold omax. destruct (o_lt p q); auto. Qed.
  Lemma hull2_from (p q : N) Z : hull2 p q = Ret Z -> (lo Z = p \/ lo Z = q) /\ (hi Z = p \/ hi Z = q).
  Proof. unfold hull2. intros H. apply (mk_iff) in H as [-> _]. cbn. split; [apply omin_or|apply omax_or]. Qed.
  Lemma hull4_from (p1 p2 p3 p4 : N) Z : hull4 p1 p2 p3 p4 = Ret Z ->
    (lo Z = p1 \/ lo Z = p2 \/ lo Z = p3 \/ lo Z = p4) /\ (hi Z = p1 \/ hi Z = p2 \/ hi Z = p3 \/ hi Z = p4).
  Proof.
    unfold hull4. intros H. apply mk_iff in H as [-> _]. cbn. split.
    - destruct (omin_or (omin p1 p2) (omin p3 p4)) as [-> | ->]; [destruct (omin_or p1 p2)|destruct (omin_or p3 p4)]; auto.
    - destruct (omax_or (omax p1 p2) (omax p3 p4)) as [-> | ->]; [destruct (omax_or p1 p2)|destruct (omax_or p3 p4)]; auto.
  Qed.
  Lemma corners_from (f : N -> N -> outcome N) x y Z :
    match x, y with
    | Sc a, _ => v1 <- f a (alower y) ;; v2 <- f a (aupper y) ;; hull2 v1 v2
    | Iv X, Sc b => v1 <- f (lo X) b ;; v2 <- f (hi X) b ;; hull2 v1 v2
    | Iv X, Iv Y =>
        v1 <- f (lo X) (lo Y) ;; v2 <- f (lo X) (hi Y) ;;
        v3 <- f (hi X) (lo Y) ;; v4 <- f (hi X) (hi Y) ;; hull4 v1 v2 v3 v4
    end = Ret Z -> corner f x y (lo Z) /\ corner f x y (hi Z).
  Proof.
    destruct x as [a|X]; [|destruct y as [b|Y]]; intros H.
    - destruct (f a (alower y)) as [v1| | | |] eqn:E1; try discriminate. cbn [bind] in H. destruct (f a (aupper y)) as [v2| | | |] eqn:E2; try discriminate. cbn [bind] in H.
      apply hull2_from in H as [A B]. split; [destruct A as [-> | ->]|destruct B as [-> | ->]]; unfold corner; cbn; eauto 8.
    - destruct (f (lo X) b) as [v1| | | |] eqn:E1; try discriminate. cbn [bind] in H. destruct (f (hi X) b) as [v2| | | |] eqn:E2; try discriminate. cbn [bind] in H.
      apply hull2_from in H as [A B]. split; [destruct A as [-> | ->]|destruct B as [-> | ->]]; unfold corner; cbn; eauto 8.
    - destruct (f (lo X) (lo Y)) as [v1| | | |] eqn:E1; try discriminate. cbn [bind] in H. destruct (f (lo X) (hi Y)) as [v2| | | |] eqn:E2; try discriminate. cbn [bind] in H.
      destruct (f (hi X) (lo Y)) as [v3| | | |] eqn:E3; try discriminate. cbn [bind] in H. destruct (f (hi X) (hi Y)) as [v4| | | |] eqn:E4; try discriminate. cbn [bind] in H.
      apply hull4_from in H as [A B]. split; [destruct A as [-> |[-> |[-> | ->]]]|destruct B as [-> |[-> |[-> | ->]]]]; unfold corner; cbn; eauto 8.
  Qed.

  Lemma add_corners dbg x y Z : aproper x -> aproper y -> ~ nan_pair n_add x y -> iadd dbg x y = Ret Z -> corner n_add x y (lo Z) /\ corner n_add x y (hi Z).
  Proof.
    intros Hx Hy Hn. unfold iadd. rewrite (pre_ok HN dbg x y Hx Hy). cbn [bind]. match goal with |- context [if ?c then _ else _] => destruct c eqn:E end.
    { now apply (add_nan_iff HN x y Hx Hy) in E. }
    destruct (n_add (alower x) (alower y)) as [l| | | |] eqn:E1; try discriminate. cbn [bind]. destruct (n_add (aupper x) (aupper y)) as [u| | | |] eqn:E2; try discriminate. cbn [bind].
    intros H. apply mk_iff in H as [-> _]. unfold corner. cbn [lo hi]. split; eauto 10.
  Qed.
  Lemma sub_corners dbg x y Z : aproper x -> aproper y -> ~ nan_pair n_sub x y -> isub dbg x y = Ret Z -> corner n_sub x y (lo Z) /\ corner n_sub x y (hi Z).
  Proof.
    intros Hx Hy Hn. unfold isub. rewrite (pre_ok HN dbg x y Hx Hy). cbn [bind]. match goal with |- context [if ?c then _ else _] => destruct c eqn:E end.
    { now apply (sub_nan_iff HN x y Hx Hy) in E. }
    destruct (n_sub (alower x) (aupper y)) as [l| | | |] eqn:E1; try discriminate. cbn [bind]. destruct (n_sub (aupper x) (alower y)) as [u| | | |] eqn:E2; try discriminate. cbn [bind].
    intros H. apply mk_iff in H as [-> _]. unfold corner. cbn [lo hi]. split; eauto 10.
  Qed.
  Lemma mul_corners dbg x y Z : aproper x -> aproper y -> ~ nan_pair n_mul x y -> imul dbg x y = Ret Z -> corner n_mul x y (lo Z) /\ corner n_mul x y (hi Z).
  Proof.
    intros Hx Hy Hn. unfold imul. rewrite (pre_ok HN dbg x y Hx Hy). cbn [bind]. match goal with |- context [if ?c then _ else _] => destruct c eqn:E end.
    { now apply (mul_nan_iff HN x y Hx Hy) in E. }
    apply corners_from.
  Qed.
  Lemma div_corners_from dbg x y Z : aproper x -> aproper y -> zero_free y -> ~ nan_pair n_div x y -> idiv dbg x y = Ret Z -> corner n_div x y (lo Z) /\ corner n_div x y (hi Z).
  Proof.
    intros Hx Hy Hz Hn. pose proof (div_zero_free HN dbg x y Hx Hy Hz) as Hop.
    intros HZ. apply (corners_from n_div x y Z). rewrite <- HZ. symmetry.
    assert (Hstr : o_lt (alower y) n_zero && o_lt n_zero (aupper y) = false).
    { destruct Hz as [Hz|Hz]; unfold aproper in Hy; apply andb_false_iff; [left|right]; clear - HO Hz Hy; ord HO. }
    assert (Hle : o_le (alower y) n_zero && o_le n_zero (aupper y) = false).
    { destruct Hz as [Hz|Hz]; unfold aproper in Hy; apply andb_false_iff; [left|right]; clear - HO Hz Hy; ord HO. }
    destruct (n_float N) eqn:Hf.
    - exact (proj2 (proj2 (idiv_float HN dbg x y Hx Hy Hf)) Hn Hstr).
    - unfold idiv. rewrite (pre_ok HN dbg x y Hx Hy), Hf. cbn [bind]. destruct x as [a|X]; [|destruct y as [b|Y]]; cbn [andb]; cbn in Hle; try rewrite Hle; reflexivity.
  Qed.
End Corners.

(** ** One conversion *)
Section Conv.
  Context {L T : num} (HL : num_laws L) (HT : num_laws T) (c : L -> T) (C : conv_laws L T c).
  Let OL := nl_ord L HL.
  Let OT := nl_ord T HT.
  Implicit Types (x : arg L) (a : L).

  Lemma c_lower x : alower (conv_arg c x) = c (alower x). Proof. now destruct x. Qed.
  Lemma c_upper x : aupper (conv_arg c x) = c (aupper x). Proof. now destruct x. Qed.
  Lemma c_proper x : aproper x -> aproper (conv_arg c x).
  Proof. unfold aproper. rewrite c_lower, c_upper. apply (cv_mono _ _ _ C). Qed.
  Lemma c_ael x a : ael x a -> ael (conv_arg c x) (c a).
  Proof. intros [A B]. unfold ael. rewrite c_lower, c_upper. split; now apply (cv_mono _ _ _ C). Qed.
  Lemma c_ok a : ok a -> ok (c a). Proof. apply (cv_mono _ _ _ C). Qed.
  Lemma c_ge0 a : ok a -> o_le n_zero (c a) = o_le n_zero a.
  Proof.
    intros H. pose proof (cv_neg _ _ _ C a) as E. pose proof (c_ok a H) as H'. pose proof (ok_zero HL) as Z. pose proof (ok_zero HT) as Z'.
    destruct (o_lt a n_zero) eqn:K.
    - transitivity false; [clear - OT E H' Z'; ord OT|clear - OL K H Z; ord OL].
    - transitivity true; [clear - OT E H' Z'; ord OT|clear - OL K H Z; ord OL].
  Qed.
  Lemma c_le0 a : ok a -> o_le (c a) n_zero = o_le a n_zero.
  Proof.
    intros H. pose proof (cv_pos _ _ _ C a) as E. pose proof (c_ok a H) as H'. pose proof (ok_zero HL) as Z. pose proof (ok_zero HT) as Z'.
    destruct (o_lt n_zero a) eqn:K.
    - transitivity false; [clear - OT E H' Z'; ord OT|clear - OL K H Z; ord OL].
    - transitivity true; [clear - OT E H' Z'; ord OT|clear - OL K H Z; ord OL].
  Qed.
  Lemma c_eq0 a : ok a -> o_eq (c a) n_zero = o_eq a n_zero.
  Proof. intros H. rewrite (ol_eq _ OL), (ol_eq _ OT), (c_ge0 a H), (c_le0 a H). reflexivity. Qed.
  Lemma c_zero a : is_zero a -> is_zero (c a).
  Proof. unfold is_zero. intros H. rewrite c_eq0; [exact H|]. clear - OL H. ord OL. Qed.
  Lemma lower_ok x : aproper x -> ok (alower x). Proof. unfold aproper. clear - OL. intros. ord OL. Qed.
  Lemma upper_ok x : aproper x -> ok (aupper x). Proof. unfold aproper. clear - OL. intros. ord OL. Qed.
  Lemma c_contains x : aproper x -> acontains (conv_arg c x) n_zero = acontains x n_zero.
  Proof.
    intros H. pose proof (lower_ok x H) as A. pose proof (upper_ok x H) as B. destruct x as [a|X]; cbn in A, B |- *; [now apply c_eq0|].
    unfold contains. cbn [lo hi]. now rewrite c_le0, c_ge0.
  Qed.
End Conv.

Section Mixed.
  Context {L R T : num} (HL : num_laws L) (HR : num_laws R) (HT : num_laws T) (cl : L -> T) (cr : R -> T) (CL : conv_laws L T cl) (CR : conv_laws R T cr) (dbg : bool).
  Let OL := nl_ord L HL.
  Let OR := nl_ord R HR.
  Let OT := nl_ord T HT.
  Implicit Types (x : arg L) (y : arg R).
  Notation cx x := (conv_arg cl x).
  Notation cy y := (conv_arg cr y).

  Lemma mixed_assigned x y : aproper x -> aproper y -> expects_debug dbg (aassigned x && aassigned y) = Ret tt.
  Proof.
    intros Hx Hy. replace (aassigned x && aassigned y) with true; [now destruct dbg|]. symmetry. destruct x as [a|X], y as [b|Y]; cbn; rewrite ?(proper_assigned OL X Hx), ?(proper_assigned OR Y Hy); reflexivity.
  Qed.
  Lemma mixed_add_eq x y : aproper x -> aproper y -> mixed_add cl cr dbg x y = iadd dbg (cx x) (cy y).
  Proof.
    intros Hx Hy. unfold mixed_add, iadd. rewrite (mixed_assigned x y Hx Hy), (pre_ok HT dbg _ _ (c_proper cl CL x Hx) (c_proper cr CR y Hy)).
    cbn [bind]. rewrite !c_lower, !c_upper. destruct (n_float T) eqn:F; [|reflexivity]. now rewrite !(cv_ninf _ _ _ CL F), !(cv_ninf _ _ _ CR F), !(cv_pinf _ _ _ CL F), !(cv_pinf _ _ _ CR F).
  Qed.
  Lemma mixed_sub_eq x y : aproper x -> aproper y -> mixed_sub cl cr dbg x y = isub dbg (cx x) (cy y).
  Proof.
    intros Hx Hy. unfold mixed_sub, isub. rewrite (mixed_assigned x y Hx Hy), (pre_ok HT dbg _ _ (c_proper cl CL x Hx) (c_proper cr CR y Hy)).
    cbn [bind]. rewrite !c_lower, !c_upper. destruct (n_float T) eqn:F; [|reflexivity]. now rewrite !(cv_ninf _ _ _ CL F), !(cv_ninf _ _ _ CR F), !(cv_pinf _ _ _ CL F), !(cv_pinf _ _ _ CR F).
  Qed.
  Lemma mixed_mul_eq x y : aproper x -> aproper y -> mixed_mul cl cr dbg x y = imul dbg (cx x) (cy y).
  Proof.
    intros Hx Hy. unfold mixed_mul, imul. rewrite (mixed_assigned x y Hx Hy), (pre_ok HT dbg _ _ (c_proper cl CL x Hx) (c_proper cr CR y Hy)).
    cbn [bind]. rewrite !c_lower, !c_upper, (c_contains HL HT cl CL x Hx), (c_contains HR HT cr CR y Hy). destruct (n_float T) eqn:F.
    - rewrite !(cv_ninf _ _ _ CL F), !(cv_ninf _ _ _ CR F), !(cv_pinf _ _ _ CL F), !(cv_pinf _ _ _ CR F). now destruct x, y.
    - now destruct x, y.
  Qed.
  Lemma mixed_div_eq x y : aproper x -> aproper y -> mixed_div cl cr dbg x y = idiv dbg (cx x) (cy y).
  Proof.
    intros Hx Hy. unfold mixed_div, idiv. rewrite (mixed_assigned x y Hx Hy), (pre_ok HT dbg _ _ (c_proper cl CL x Hx) (c_proper cr CR y Hy)).
    cbn [bind]. pose proof (lower_ok HL x Hx) as XL. pose proof (upper_ok HL x Hx) as XU. pose proof (lower_ok HR y Hy) as YL. pose proof (upper_ok HR y Hy) as YU.
    destruct x as [a|X]; [|destruct y as [b|Y]]; cbn [conv_arg alower aupper lo hi] in *.
    - change (match y with Sc n => Sc (cr n) | Iv Y => Iv (Ivl (cr (lo Y)) (cr (hi Y))) end) with (cy y). rewrite !c_lower, !c_upper.
      rewrite ?(c_eq0 HL HT cl CL) by assumption. rewrite ?(c_le0 HR HT cr CR), ?(c_ge0 HR HT cr CR), ?(cv_pos _ _ _ CR), ?(cv_neg _ _ _ CR) by assumption.
      destruct (n_float T) eqn:F; [|reflexivity]. now rewrite !(cv_ninf _ _ _ CL F), !(cv_ninf _ _ _ CR F), !(cv_pinf _ _ _ CL F), !(cv_pinf _ _ _ CR F).
    - rewrite ?(c_le0 HL HT cl CL), ?(c_ge0 HL HT cl CL), ?(c_eq0 HR HT cr CR) by assumption.
      destruct (n_float T) eqn:F; [|reflexivity]. now rewrite !(cv_ninf _ _ _ CL F), !(cv_ninf _ _ _ CR F), !(cv_pinf _ _ _ CL F), !(cv_pinf _ _ _ CR F).
    - rewrite ?(c_le0 HL HT cl CL), ?(c_ge0 HL HT cl CL), ?(c_le0 HR HT cr CR), ?(c_ge0 HR HT cr CR), ?(cv_pos _ _ _ CR), ?(cv_neg _ _ _ CR), ?(cv_pos _ _ _ CL), ?(cv_neg _ _ _ CL) by assumption.
      destruct (n_float T) eqn:F; [|reflexivity]. now rewrite !(cv_ninf _ _ _ CL F), !(cv_ninf _ _ _ CR F), !(cv_pinf _ _ _ CL F), !(cv_pinf _ _ _ CR F).
  Qed.

  (** ** From the common type back to the operands *)
  Lemma from_corner (f : T -> T -> outcome T) x y z : aproper x -> aproper y -> corner f (cx x) (cy y) z -> img2 (lift cl cr f) x y z.
  Proof.
    intros Hx Hy (a & b & Ha & Hb & Hf). rewrite c_lower, c_upper in Ha. rewrite c_lower, c_upper in Hb. unfold img2, lift.
    pose proof (ael_lower OL x Hx). pose proof (ael_upper OL x Hx). pose proof (ael_lower OR y Hy). pose proof (ael_upper OR y Hy).
    destruct Ha as [-> | ->], Hb as [-> | ->]; eauto 8.
  Qed.
  Lemma lift_extends (f : T -> T -> outcome T) F x y : aproper x -> aproper y ->
    op_ok f F (cx x) (cy y) ->
    (forall Z, F = Ret Z -> ~ nan_pair f (cx x) (cy y) -> corner f (cx x) (cy y) (lo Z) /\ corner f (cx x) (cy y) (hi Z)) ->
    (n_float T = true -> forall u v, exists z, f u v = Ret z) ->
    (nan_pair f (cx x) (cy y) -> nan_image (lift cl cr f) x y) ->
    extends (lift cl cr f) F x y.
  Proof.
    intros Hx Hy [Hop1 Hop2] Hco Htot Hnan. split; [split|].
    - intros Hd. apply Hop1. intros u v [U1 U2] [V1 V2]. destruct (n_float T) eqn:Fl; [now apply Htot|].
      rewrite c_lower in U1. rewrite c_lower in V1. rewrite c_upper in U2. rewrite c_upper in V2. destruct (cv_onto _ _ _ CL Fl _ _ _ U1 U2) as (a & A1 & A2 & <-). destruct (cv_onto _ _ _ CR Fl _ _ _ V1 V2) as (b & B1 & B2 & <-).
      apply (Hd a b); split; assumption.
    - intros (Z & HZ). destruct (Hop2 Z HZ) as (Hd & _). intros u v Hu Hv. apply Hd; [now apply (c_ael cl CL)|now apply (c_ael cr CR)].
    - intros Z HZ. destruct (Hop2 Z HZ) as (Hd & Hn & Hh). split.
      + intros (z & (u & v & Hu & Hv & Hz) & Hz'). apply Hn. exists (cl u), (cr v), z. split; [now apply (c_ael cl CL)|]. split; [now apply (c_ael cr CR)|]. auto.
      + intros H. assert (K : ~ nan_pair f (cx x) (cy y)) by tauto. destruct (Hh K) as (H1 & _ & _). destruct (Hco Z HZ K) as [C1 C2].
        assert (Q : forall z, corner f (cx x) (cy y) z -> o_eq z z = true).
        { intros z Hz. destruct (ok_dec HT z) as [O|O]; [clear - OT O; ord OT|]. exfalso. apply H. exists z. split; [now apply from_corner|exact O]. }
        split; [|split].
        * intros z (u & v & Hu & Hv & Hz). apply H1. exists (cl u), (cr v). split; [now apply (c_ael cl CL)|]. split; [now apply (c_ael cr CR)|exact Hz].
        * exists (lo Z). split; [now apply from_corner|now apply Q].
        * exists (hi Z). split; [now apply from_corner|now apply Q].
  Qed.
  Lemma nan_at (f : T -> T -> outcome T) x y u v s : ael x u -> ael y v -> f (cl u) (cr v) = Ret s -> ~ ok s -> nan_image (lift cl cr f) x y.
  Proof. intros Hu Hv Hf Hs. exists s. split; [exists u, v; auto|]. now apply (nan_iff HT). Qed.

  Lemma mixed_add_extends x y : aproper x -> aproper y -> extends (lift cl cr n_add) (mixed_add cl cr dbg x y) x y.
  Proof.
    intros Hx Hy. rewrite (mixed_add_eq x y Hx Hy). pose proof (c_proper cl CL x Hx) as Px. pose proof (c_proper cr CR y Hy) as Py. apply (lift_extends _ _ x y Hx Hy).
    - now apply (add_op_ok HT).
    - intros Z HZ Hn. now apply (add_corners HT dbg).
    - intros F u v. now destruct (nl_float_total T HT F u v) as (_ & _ & H & _).
    - intros H. apply (add_nan_iff HT _ _ Px Py) in H. apply andb_true_iff in H as [F H]. rewrite !c_lower, !c_upper in H.
      apply orb_true_iff in H as [H|H]; apply andb_true_iff in H as [H1 H2].
      + destruct (nl_float_total T HT F (cl (alower x)) (cr (aupper y))) as (_ & _ & (s & Hs) & _). apply (nan_at n_add x y (alower x) (aupper y) s); [now apply (ael_lower OL)|now apply (ael_upper OR)|exact Hs|].
        intros K. apply (nl_add_nan T HT) in Hs; [|apply (c_ok cl CL), (lower_ok HL x Hx)|apply (c_ok cr CR), (upper_ok HR y Hy)]. tauto.
      + destruct (nl_float_total T HT F (cl (aupper x)) (cr (alower y))) as (_ & _ & (s & Hs) & _). apply (nan_at n_add x y (aupper x) (alower y) s); [now apply (ael_upper OL)|now apply (ael_lower OR)|exact Hs|].
        intros K. apply (nl_add_nan T HT) in Hs; [|apply (c_ok cl CL), (upper_ok HL x Hx)|apply (c_ok cr CR), (lower_ok HR y Hy)]. tauto.
  Qed.
  Lemma mixed_sub_extends x y : aproper x -> aproper y -> extends (lift cl cr n_sub) (mixed_sub cl cr dbg x y) x y.
  Proof.
    intros Hx Hy. rewrite (mixed_sub_eq x y Hx Hy). pose proof (c_proper cl CL x Hx) as Px. pose proof (c_proper cr CR y Hy) as Py. apply (lift_extends _ _ x y Hx Hy).
    - now apply (sub_op_ok HT).
    - intros Z HZ Hn. now apply (sub_corners HT dbg).
    - intros F u v. now destruct (nl_float_total T HT F u v) as (_ & _ & _ & H & _).
    - intros H. apply (sub_nan_iff HT _ _ Px Py) in H. apply andb_true_iff in H as [F H]. rewrite !c_lower, !c_upper in H.
      apply orb_true_iff in H as [H|H]; apply andb_true_iff in H as [H1 H2].
      + destruct (nl_float_total T HT F (cl (alower x)) (cr (alower y))) as (_ & _ & _ & (s & Hs) & _). apply (nan_at n_sub x y (alower x) (alower y) s); [now apply (ael_lower OL)|now apply (ael_lower OR)|exact Hs|].
        intros K. apply (nl_sub_nan T HT) in Hs; [|apply (c_ok cl CL), (lower_ok HL x Hx)|apply (c_ok cr CR), (lower_ok HR y Hy)]. tauto.
      + destruct (nl_float_total T HT F (cl (aupper x)) (cr (aupper y))) as (_ & _ & _ & (s & Hs) & _). apply (nan_at n_sub x y (aupper x) (aupper y) s); [now apply (ael_upper OL)|now apply (ael_upper OR)|exact Hs|].
        intros K. apply (nl_sub_nan T HT) in Hs; [|apply (c_ok cl CL), (upper_ok HL x Hx)|apply (c_ok cr CR), (upper_ok HR y Hy)]. tauto.
  Qed.

  (** Elements of the operands that are converted to infinities and zeros. *)
  Lemma inf_l x : aproper x -> n_float T = true -> is_ninf (alower (cx x)) || is_pinf (aupper (cx x)) = true -> exists u, ael x u /\ infinite (cl u).
  Proof.
    intros Hx F H. rewrite c_lower, c_upper in H. apply orb_true_iff in H as [H|H].
    - exists (alower x). split; [now apply (ael_lower OL)|]. apply infinite_iff. auto.
    - exists (aupper x). split; [now apply (ael_upper OL)|]. apply infinite_iff. auto.
  Qed.
  Lemma inf_r y : aproper y -> n_float T = true -> is_ninf (alower (cy y)) || is_pinf (aupper (cy y)) = true -> exists u, ael y u /\ infinite (cr u).
  Proof.
    intros Hy F H. rewrite c_lower, c_upper in H. apply orb_true_iff in H as [H|H].
    - exists (alower y). split; [now apply (ael_lower OR)|]. apply infinite_iff. auto.
    - exists (aupper y). split; [now apply (ael_upper OR)|]. apply infinite_iff. auto.
  Qed.
  Lemma zero_l x : aproper x -> o_le (alower (cx x)) n_zero && o_le n_zero (aupper (cx x)) = true -> exists u, ael x u /\ is_zero (cl u).
  Proof.
    intros Hx H. rewrite c_lower, c_upper, (c_le0 HL HT cl CL _ (lower_ok HL x Hx)), (c_ge0 HL HT cl CL _ (upper_ok HL x Hx)) in H. apply (azero_iff HL x Hx) in H as (u & Hu & Zu).
    exists u. split; [exact Hu|now apply (c_zero HL HT cl CL)].
  Qed.
  Lemma zero_r y : aproper y -> o_le (alower (cy y)) n_zero && o_le n_zero (aupper (cy y)) = true -> exists u, ael y u /\ is_zero (cr u).
  Proof.
    intros Hy H. rewrite c_lower, c_upper, (c_le0 HR HT cr CR _ (lower_ok HR y Hy)), (c_ge0 HR HT cr CR _ (upper_ok HR y Hy)) in H. apply (azero_iff HR y Hy) in H as (u & Hu & Zu).
    exists u. split; [exact Hu|now apply (c_zero HR HT cr CR)].
  Qed.
  Lemma mixed_mul_extends x y : aproper x -> aproper y -> extends (lift cl cr n_mul) (mixed_mul cl cr dbg x y) x y.
  Proof.
    intros Hx Hy. rewrite (mixed_mul_eq x y Hx Hy). pose proof (c_proper cl CL x Hx) as Px. pose proof (c_proper cr CR y Hy) as Py. apply (lift_extends _ _ x y Hx Hy).
    - now apply (mul_op_ok HT).
    - intros Z HZ Hn. now apply (mul_corners HT dbg).
    - intros F u v. now destruct (nl_float_total T HT F u v) as (_ & _ & _ & _ & H & _).
    - intros H. apply (mul_nan_iff HT _ _ Px Py) in H. apply andb_true_iff in H as [F H].
      assert (K : exists u v, ael x u /\ ael y v /\ ((infinite (cl u) /\ is_zero (cr v)) \/ (is_zero (cl u) /\ infinite (cr v)))).
      { apply orb_true_iff in H as [H|H]; apply andb_true_iff in H as [H1 H2].
        - apply (inf_l x Hx F) in H1 as (u & Hu & Iu). apply (acontains_iff HT _ _ (ok_zero HT)), andb_true_iff, (zero_r y Hy) in H2 as (v & Hv & Zv). exists u, v. auto.
        - apply (inf_r y Hy F) in H2 as (v & Hv & Iv). apply (acontains_iff HT _ _ (ok_zero HT)), andb_true_iff, (zero_l x Hx) in H1 as (u & Hu & Zu). exists u, v. auto. }
      destruct K as (u & v & Hu & Hv & K). destruct (nl_float_total T HT F (cl u) (cr v)) as (_ & _ & _ & _ & (s & Hs) & _). apply (nan_at n_mul x y u v s Hu Hv Hs).
      intros O. apply (nl_mul_nan T HT) in Hs; [|apply (c_ok cl CL), (ael_ok OL _ _ Hu)|apply (c_ok cr CR), (ael_ok OR _ _ Hv)]. tauto.
  Qed.
  Lemma mixed_div_nan x y : aproper x -> aproper y -> n_float T = true -> nan_pair n_div (cx x) (cy y) -> nan_image (lift cl cr n_div) x y.
  Proof.
    intros Hx Hy F H. pose proof (c_proper cl CL x Hx) as Px. pose proof (c_proper cr CR y Hy) as Py. apply (div_nan_iff HT _ _ Px Py F) in H.
    assert (K : exists u v, ael x u /\ ael y v /\ ((infinite (cl u) /\ infinite (cr v)) \/ (is_zero (cl u) /\ is_zero (cr v)))).
    { destruct H as [H|H]; apply andb_true_iff in H as [H1 H2].
      - apply (inf_l x Hx F) in H1 as (u & Hu & Iu). apply (inf_r y Hy F) in H2 as (v & Hv & Iv). exists u, v. auto.
      - apply (zero_l x Hx) in H1 as (u & Hu & Iu). apply (zero_r y Hy) in H2 as (v & Hv & Iv). exists u, v. auto. }
    destruct K as (u & v & Hu & Hv & K). destruct (nl_float_total T HT F (cl u) (cr v)) as (_ & _ & _ & _ & _ & (s & Hs)). apply (nan_at n_div x y u v s Hu Hv Hs).
    intros O. apply (nl_div_nan T HT) in Hs; [|apply (c_ok cl CL), (ael_ok OL _ _ Hu)|apply (c_ok cr CR), (ael_ok OR _ _ Hv)]. tauto.
  Qed.
  Lemma int_nan (f : T -> T -> outcome T) (x y : arg T) : n_float T = false -> ~ nan_pair f x y.
  Proof. intros F (u & v & s & _ & _ & _ & H). apply (nan_iff HT) in H. apply H, (nl_int_ok T HT F). Qed.
  Lemma mixed_div_extends x y : aproper x -> aproper y -> ~ (exists v, ael y v /\ is_zero v) -> extends (lift cl cr n_div) (mixed_div cl cr dbg x y) x y.
  Proof.
    intros Hx Hy Hz. rewrite (mixed_div_eq x y Hx Hy). pose proof (c_proper cl CL x Hx) as Px. pose proof (c_proper cr CR y Hy) as Py.
    assert (Z0 : zero_free (cy y)). { apply (zero_free_iff HR y Hy) in Hz. unfold zero_free in *. rewrite c_lower, c_upper, (cv_pos _ _ _ CR), (cv_neg _ _ _ CR). exact Hz. }
    apply (lift_extends _ _ x y Hx Hy).
    - now apply (div_zero_free HT).
    - intros Z HZ Hn. now apply (div_corners_from HT dbg).
    - intros F u v. now destruct (nl_float_total T HT F u v) as (_ & _ & _ & _ & _ & H).
    - intros H. destruct (n_float T) eqn:F; [now apply mixed_div_nan|]. now apply int_nan in H.
  Qed.
  Lemma mixed_div_nan_exact x y : aproper x -> aproper y -> n_float T = true ->
    exists Z, mixed_div cl cr dbg x y = Ret Z /\ (nan_image (lift cl cr n_div) x y -> nan_ivl Z) /\ (~ nan_image (lift cl cr n_div) x y -> proper Z).
  Proof.
    intros Hx Hy F. rewrite (mixed_div_eq x y Hx Hy). pose proof (c_proper cl CL x Hx) as Px. pose proof (c_proper cr CR y Hy) as Py.
    destruct (div_nan HT dbg _ _ Px Py F) as (Z & HZ & H1 & H2). exists Z. split; [exact HZ|]. split.
    - intros (z & (u & v & Hu & Hv & Hz) & Hz'). apply H1. exists (cl u), (cr v), z. split; [now apply (c_ael cl CL)|]. split; [now apply (c_ael cr CR)|]. auto.
    - intros H. apply H2. intros K. apply H. now apply mixed_div_nan.
  Qed.
  Lemma mixed_div_encloses x y : aproper x -> aproper y -> n_float T = true -> ~ nan_image (lift cl cr n_div) x y ->
    (neg_zero (cr (alower y)) -> is_zero (aupper y)) -> (pos_zero (cr (aupper y)) -> is_zero (alower y)) ->
    exists Z, mixed_div cl cr dbg x y = Ret Z /\ forall u v q, ael x u -> ael y v -> ~ is_zero v -> n_div (cl u) (cr v) = Ret q -> el Z q.
  Proof.
    intros Hx Hy F Hn F1 F2. rewrite (mixed_div_eq x y Hx Hy). pose proof (c_proper cl CL x Hx) as Px. pose proof (c_proper cr CR y Hy) as Py.
    destruct (div_encloses HT dbg _ _ Px Py F) as (Z & HZ & H).
    - intros K. apply Hn. now apply mixed_div_nan.
    - split; rewrite c_lower, c_upper; intros K; apply (c_zero HR HT cr CR); auto.
    - exists Z. split; [exact HZ|]. intros u v q Hu Hv Hv0 Hq. apply (H (cl u) (cr v) q); [now apply (c_ael cl CL)|now apply (c_ael cr CR)| |exact Hq].
      intros K. apply Hv0. unfold is_zero in *. rewrite (c_eq0 HR HT cr CR) in K; [exact K|exact (ael_ok OR _ _ Hv)].
  Qed.
  Lemma mixed_div_trap x Y : aproper x -> proper Y -> n_float T = false -> (mixed_div cl cr dbg x (Iv Y) = Trap <-> exists v, el Y v /\ is_zero v).
  Proof.
    intros Hx Hy F. rewrite (mixed_div_eq x (Iv Y) Hx Hy). cbn [conv_arg]. rewrite (div_int_trap HT dbg _ _ (c_proper cl CL x Hx) (c_proper cr CR (Iv Y) Hy) F).
    split; intros (v & Hv & Zv).
    - apply (azero_iff HR (Iv Y) Hy). pose proof (proj2 (azero_iff HT (cy (Iv Y)) (c_proper cr CR (Iv Y) Hy)) (ex_intro _ v (conj Hv Zv))) as H.
      now rewrite c_lower, c_upper, (c_le0 HR HT cr CR _ (lower_ok HR (Iv Y) Hy)), (c_ge0 HR HT cr CR _ (upper_ok HR (Iv Y) Hy)) in H.
    - exists (cr v). split; [exact (c_ael cr CR (Iv Y) v Hv)|now apply (c_zero HR HT cr CR)].
  Qed.

  (** ** Comparisons *)
  Lemma mixed_pre_ok x y : aproper x -> aproper y -> mixed_pre dbg x y = Ret tt. Proof. apply mixed_assigned. Qed.
  Lemma ends_le x y u v : ael x u -> ael y v ->
    o_le (cl (alower x)) (cl u) = true /\ o_le (cl u) (cl (aupper x)) = true /\ o_le (cr (alower y)) (cr v) = true /\ o_le (cr v) (cr (aupper y)) = true.
  Proof. intros [A B] [C D]. repeat (split; [now apply (cv_mono _ _ _ CL) || now apply (cv_mono _ _ _ CR)|]). now apply (cv_mono _ _ _ CR). Qed.
  Lemma mixed_lt_exact x y : aproper x -> aproper y ->
    exists s, mixed_lt cl cr dbg x y = Ret s /\ wf_set s /\ forall t : bool, member s t <-> truths (lift cl cr o_lt) x y t.
  Proof.
    intros Hx Hy. unfold mixed_lt. rewrite (mixed_pre_ok x y Hx Hy). cbn [bind]. eexists. split; [reflexivity|]. split; [apply (two_assign_wf _ _ true)|].
    pose proof (ael_lower OL x Hx) as XL. pose proof (ael_upper OL x Hx) as XU. pose proof (ael_lower OR y Hy) as YL. pose proof (ael_upper OR y Hy) as YU.
    destruct (two_true (lift cl cr o_lt (alower x) (aupper y)) (rlift cl cr o_le (alower y) (aupper x)) true) as [Ht Hf].
    intros [|]; unfold mixed_compare_lt; [rewrite Ht|rewrite Hf]; split.
    - intros H. exists (alower x), (aupper y). auto.
    - intros (u & v & Hu & Hv & H). destruct (ends_le x y u v Hu Hv) as (A & B & C & D). unfold lift in *. clear - OT A B C D H. ord OT.
    - intros H. exists (aupper x), (alower y). split; [exact XU|]. split; [exact YL|]. unfold lift, rlift in *. clear - OT H. ord OT.
    - intros (u & v & Hu & Hv & H). destruct (ends_le x y u v Hu Hv) as (A & B & C & D). unfold lift, rlift in *. clear - OT A B C D H. ord OT.
  Qed.
  Lemma mixed_leq_exact x y : aproper x -> aproper y ->
    exists s, mixed_leq cl cr dbg x y = Ret s /\ wf_set s /\ forall t : bool, member s t <-> truths (lift cl cr o_le) x y t.
  Proof.
    intros Hx Hy. unfold mixed_leq. rewrite (mixed_pre_ok x y Hx Hy). cbn [bind]. eexists. split; [reflexivity|]. split; [apply (two_assign_wf _ _ true)|].
    pose proof (ael_lower OL x Hx) as XL. pose proof (ael_upper OL x Hx) as XU. pose proof (ael_lower OR y Hy) as YL. pose proof (ael_upper OR y Hy) as YU.
    destruct (two_true (lift cl cr o_le (alower x) (aupper y)) (rlift cl cr o_lt (alower y) (aupper x)) true) as [Ht Hf].
    intros [|]; unfold mixed_compare_leq; [rewrite Ht|rewrite Hf]; split.
    - intros H. exists (alower x), (aupper y). auto.
    - intros (u & v & Hu & Hv & H). destruct (ends_le x y u v Hu Hv) as (A & B & C & D). unfold lift in *. clear - OT A B C D H. ord OT.
    - intros H. exists (aupper x), (alower y). split; [exact XU|]. split; [exact YL|]. unfold lift, rlift in *. clear - OT H. ord OT.
    - intros (u & v & Hu & Hv & H). destruct (ends_le x y u v Hu Hv) as (A & B & C & D). unfold lift, rlift in *. clear - OT A B C D H. ord OT.
  Qed.
  (** [==]: [false] exactly, [true] if the operands share a value. *)
  Lemma mixed_eq_spec x y : aproper x -> aproper y ->
    exists s, mixed_eq cl cr dbg x y = Ret s /\ wf_set s /\ (member s (false : bool) <-> truths (lift cl cr o_eq) x y false)
      /\ (truths (lift cl cr o_eq) x y true -> member s (true : bool)).
  Proof.
    intros Hx Hy. unfold mixed_eq. rewrite (mixed_pre_ok x y Hx Hy). cbn [bind]. eexists. split; [reflexivity|]. split; [apply (two_assign_wf _ _ true)|].
    pose proof (ael_lower OL x Hx) as XL. pose proof (ael_upper OL x Hx) as XU. pose proof (ael_lower OR y Hy) as YL. pose proof (ael_upper OR y Hy) as YU.
    unfold mixed_compare_eq. edestruct (two_true) as [Ht Hf]. rewrite Ht, Hf. split; [split|].
    - intros H. apply orb_true_iff in H as [H|H]; apply negb_true_iff in H; [exists (alower x), (aupper y)|exists (aupper x), (alower y)]; auto.
    - intros (u & v & Hu & Hv & H). destruct (ends_le x y u v Hu Hv) as (A & B & C & D). unfold lift in *.
      destruct (o_eq (cl (alower x)) (cr (aupper y))) eqn:E1; [|reflexivity]. destruct (o_eq (cl (aupper x)) (cr (alower y))) eqn:E2; [|reflexivity]. exfalso. clear - OT A B C D H E1 E2. ord OT.
    - intros (u & v & Hu & Hv & H). destruct (ends_le x y u v Hu Hv) as (A & B & C & D). unfold lift, rlift in *. apply andb_true_iff. split; clear - OT A B C D H; ord OT.
  Qed.
  Lemma mixed_neq_spec x y : aproper x -> aproper y ->
    exists s, mixed_neq cl cr dbg x y = Ret s /\ wf_set s /\ (member s (true : bool) <-> truths (lift cl cr o_eq) x y false)
      /\ (truths (lift cl cr o_eq) x y true -> member s (false : bool)).
  Proof.
    intros Hx Hy. unfold mixed_neq. rewrite (mixed_pre_ok x y Hx Hy). cbn [bind]. eexists. split; [reflexivity|]. split; [apply (two_assign_wf _ _ false)|].
    pose proof (ael_lower OL x Hx) as XL. pose proof (ael_upper OL x Hx) as XU. pose proof (ael_lower OR y Hy) as YL. pose proof (ael_upper OR y Hy) as YU.
    unfold mixed_compare_neq. edestruct (two_true) as [Ht Hf]. rewrite Ht, Hf. split; [split|].
    - intros H. apply orb_true_iff in H as [H|H]; apply negb_true_iff in H; [exists (alower x), (aupper y)|exists (aupper x), (alower y)]; auto.
    - intros (u & v & Hu & Hv & H). destruct (ends_le x y u v Hu Hv) as (A & B & C & D). unfold lift in *.
      destruct (o_eq (cl (alower x)) (cr (aupper y))) eqn:E1; [|reflexivity]. destruct (o_eq (cl (aupper x)) (cr (alower y))) eqn:E2; [|reflexivity]. exfalso. clear - OT A B C D H E1 E2. ord OT.
    - intros (u & v & Hu & Hv & H). destruct (ends_le x y u v Hu Hv) as (A & B & C & D). unfold lift, rlift in *. apply andb_true_iff. split; clear - OT A B C D H; ord OT.
  Qed.
End Mixed.

(** ** The converting constructor *)
Section Convert.
  Context {U T : num} (HU : num_laws U) (HT : num_laws T) (c : U -> outcome T).
  Let OU := nl_ord U HU.
  Let OT := nl_ord T HT.
  Hypothesis mono : forall (a b : U) x y, o_le a b = true -> c a = Ret x -> c b = Ret y -> o_le x y = true.
  Hypothesis def : forall (a b d : U) x y, o_le a d = true -> o_le d b = true -> c a = Ret x -> c b = Ret y -> exists z, c d = Ret z.
  Lemma iconvert_spec (X : ivl U) : proper X ->
    (defined1 c X <-> exists Z, iconvert c X = Ret Z) /\ (forall Z, iconvert c X = Ret Z -> is_hull (img1 c X) Z).
  Proof.
    intros HX. unfold iconvert. rewrite (proper_assigned OU X HX). pose proof (el_lower OU X HX) as XL. pose proof (el_upper OU X HX) as XU. split; [split|].
    - intros H. destruct (H _ XL) as (l & ->), (H _ XU) as (u & ->). cbn [bind]. eauto.
    - intros (Z & HZ). destruct (c (lo X)) as [l| | | |] eqn:El; try discriminate. cbn [bind] in HZ. destruct (c (hi X)) as [u| | | |] eqn:Eu; try discriminate.
      intros v [A B]. exact (def _ _ _ _ _ A B El Eu).
    - intros Z HZ. destruct (c (lo X)) as [l| | | |] eqn:El; try discriminate. cbn [bind] in HZ. destruct (c (hi X)) as [u| | | |] eqn:Eu; try discriminate. cbn [bind] in HZ.
      injection HZ as <-. apply (hull_by_ends HT); cbn [lo hi].
      + intros z (v & [A B] & Hv). split; [exact (mono _ _ _ _ A El Hv)|exact (mono _ _ _ _ B Hv Eu)].
      + exists (lo X). auto.
      + exists (hi X). auto.
  Qed.
  Lemma iconvert_unassigned (X : ivl U) : assigned X = false -> exists Z, iconvert c X = Ret Z /\ Z = ivl_default /\ assigned Z = false.
  Proof.
    intros H. unfold iconvert. rewrite H. eexists. split; [reflexivity|]. split; [reflexivity|]. unfold assigned, ivl_default. cbn [lo hi]. apply negb_false_iff. pose proof (nl_zero T HT) as [A B]. clear - OT A B. ord OT.
  Qed.
End Convert.
