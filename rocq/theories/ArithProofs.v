(** Proofs about interval arithmetic over any arithmetic value type. *)
From Coq Require Import Bool List.
From Verif Require Import Outcome SetModel Spec SetProofs SetProofs2 Num NumLaws IntervalModel IvlSpec IvlProofs.
Import ListNotations.

Ltac letr HO :=
  match goal with H1 : o_le ?a ?b = true, H2 : o_le ?b ?c = true |- o_le ?a ?c = true => exact (ol_trans _ HO _ _ _ H1 H2) end.

Section Arith.
  Context {N : num} (HN : num_laws N).
  Let HO := nl_ord N HN.
  Implicit Types (X Y Z : ivl N) (u v w : N) (x y : arg N).

  Lemma le_refl u : ok u -> o_le u u = true. Proof. auto. Qed.
  Lemma nan_iff u : nan u <-> ~ ok u. Proof. apply (nan_not_ok HO). Qed.
  Lemma ok_dec u : ok u \/ nan u.
  Proof. unfold ok, nan. rewrite (ol_eq _ HO). destruct (o_le u u); auto. Qed.

  Lemma ninf_lower u v : is_ninf v = true -> o_le u v = true -> is_ninf u = true.
  Proof.
    unfold is_ninf. intros H1 H2. destruct (n_float N); [cbn in *|discriminate].
    pose proof (nl_bot N HN u (proj1 (ol_ok _ HO _ _ H2))). ord HO.
  Qed.
  Lemma pinf_upper u v : is_pinf u = true -> o_le u v = true -> is_pinf v = true.
  Proof.
    unfold is_pinf. intros H1 H2. destruct (n_float N); [cbn in *|discriminate].
    pose proof (nl_top N HN v (proj2 (ol_ok _ HO _ _ H2))). ord HO.
  Qed.
  Lemma inf_float u : is_ninf u = true \/ is_pinf u = true -> n_float N = true.
  Proof. unfold is_ninf, is_pinf. destruct (n_float N); cbn; intuition. Qed.
  Lemma infinite_iff u : infinite u <-> is_ninf u = true \/ is_pinf u = true.
  Proof. unfold infinite, is_ninf, is_pinf. destruct (n_float N); cbn; intuition discriminate. Qed.
  Lemma infinite_b u : is_ninf u || is_pinf u = true <-> infinite u.
  Proof. now rewrite orb_true_iff, infinite_iff. Qed.
  Lemma ainfinite_iff x : aproper x -> (is_ninf (alower x) || is_pinf (aupper x) = true <-> exists u, ael x u /\ infinite u).
  Proof.
    intros Hx. rewrite orb_true_iff. split.
    - intros [H|H]; [exists (alower x)|exists (aupper x)]; rewrite infinite_iff; auto using (ael_lower HO), (ael_upper HO).
    - intros (u & [H1 H2] & H). apply infinite_iff in H as [H|H]; [left; eapply ninf_lower|right; eapply pinf_upper]; eauto.
  Qed.
  Lemma azero_iff x : aproper x -> (o_le (alower x) n_zero && o_le n_zero (aupper x) = true <-> exists u, ael x u /\ is_zero u).
  Proof.
    intros Hx. rewrite andb_true_iff. unfold is_zero. split.
    - intros [H1 H2]. exists n_zero. split; [split; auto|]. ord HO.
    - intros (u & [H1 H2] & H). split; ord HO.
  Qed.
  Lemma acontains_iff x v : ok v -> (acontains x v = true <-> o_le (alower x) v = true /\ o_le v (aupper x) = true).
  Proof.
    intros Hv. destruct x as [a|X]; cbn; [|unfold contains; now rewrite andb_true_iff]. split; [intros H; split; ord HO|]. intros [H1 H2]. ord HO.
  Qed.
  Lemma ok_zero : ok (@n_zero N). Proof. destruct (nl_zero N HN). ord HO. Qed.
  Lemma acontains_zero x : aproper x -> (acontains x n_zero = true <-> exists u, ael x u /\ is_zero u).
  Proof. intros Hx. rewrite (acontains_iff x n_zero ok_zero), <- (azero_iff x Hx). now rewrite andb_true_iff. Qed.
  Lemma inf_not_zero u : infinite u -> ~ is_zero u.
  Proof. intros [_ [H|H]] Hz; unfold is_zero in Hz; destruct (nl_zero N HN) as [H1 H2]; ord HO. Qed.

  Lemma nan_interval_nan : n_float N = true -> exists Z, @nan_interval N = Ret Z /\ nan_ivl Z.
  Proof.
    intros Hf. pose proof (nl_nan N HN Hf) as Hn. exists (Ivl n_nan n_nan). split; [|split; now apply nan_iff].
    apply mk_iff. split; [reflexivity|]. rewrite (ol_lt _ HO). unfold ok in Hn. destruct (o_le n_nan n_nan); [now destruct Hn|reflexivity].
  Qed.
  Lemma ok_top : ok (@n_top N). Proof. destruct (nl_zero N HN). ord HO. Qed.
  Lemma ok_bot : ok (@n_bot N). Proof. destruct (nl_zero N HN). ord HO. Qed.
  Lemma bot_le_top : o_le (@n_bot N) n_top = true. Proof. apply (nl_top N HN), ok_bot. Qed.
  Lemma inf_interval_ret : @inf_interval N = Ret (Ivl n_bot n_top).
  Proof. apply mk_proper; [exact HO|apply bot_le_top]. Qed.
  Lemma el_inf_interval u : ok u -> el (Ivl n_bot n_top) u.
  Proof. intros H. split; cbn; [now apply (nl_bot N HN)|now apply (nl_top N HN)]. Qed.

  Lemma pre_ok dbg x y : aproper x -> aproper y -> expects_debug dbg (aassigned x && aassigned y) = Ret tt.
  Proof. intros Hx Hy. rewrite !(aproper_assigned HO) by assumption. now destruct dbg. Qed.
  Lemma pre1_ok dbg X : proper X -> expects_debug dbg (assigned X) = Ret tt.
  Proof. intros HX. rewrite (proper_assigned HO) by assumption. now destruct dbg. Qed.

  (** A hull whose two end points are the images of end points. *)
  Lemma hull_by_ends (P : N -> Prop) Z : (forall v, P v -> o_le (lo Z) v = true /\ o_le v (hi Z) = true) -> P (lo Z) -> P (hi Z) ->
    is_hull P Z.
  Proof.
    intros H H1 H2. split; [exact H|]. split; [exists (lo Z)|exists (hi Z)]; (split; [assumption|]).
    - destruct (H _ H1). ord HO.
    - destruct (H _ H2). ord HO.
  Qed.

  (** ** negation *)
  Lemma neg_hull dbg X : proper X ->
    (defined1 n_neg X -> exists Z, ineg dbg X = Ret Z) /\
    (forall Z, ineg dbg X = Ret Z -> defined1 n_neg X /\ is_hull (img1 n_neg X) Z) /\
    ((exists Z, ineg dbg X = Ret Z) \/ ineg dbg X = UB).
  Proof.
    intros HX. unfold ineg. rewrite (pre1_ok dbg X HX). cbn [bind].
    assert (Hmk : forall l u, n_neg (hi X) = Ret l -> n_neg (lo X) = Ret u -> mk l u = Ret (Ivl l u)).
    { intros l u Hl Hu. apply (mk_proper HO). exact (nl_neg_anti N HN _ _ _ _ HX Hu Hl). }
    split; [|split].
    - intros Hd. destruct (Hd _ (el_upper HO X HX)) as (l & Hl), (Hd _ (el_lower HO X HX)) as (u & Hu).
      rewrite Hl, Hu. cbn [bind]. rewrite (Hmk l u Hl Hu). eauto.
    - intros Z HZ. destruct (n_neg (hi X)) as [l| | | |] eqn:Hl; try discriminate. cbn [bind] in HZ.
      destruct (n_neg (lo X)) as [u| | | |] eqn:Hu; try discriminate. cbn [bind] in HZ.
      rewrite (Hmk l u eq_refl eq_refl) in HZ. injection HZ as <-. split.
      + intros v [H1 H2]. exact (nl_neg_def N HN _ _ _ H1 Hu).
      + apply hull_by_ends; cbn.
        * intros z (v & [H1 H2] & Hv). split; [exact (nl_neg_anti N HN _ _ _ _ H2 Hv Hl)|exact (nl_neg_anti N HN _ _ _ _ H1 Hu Hv)].
        * exists (hi X). split; [now apply (el_upper HO)|exact Hl].
        * exists (lo X). split; [now apply (el_lower HO)|exact Hu].
    - destruct (proj1 (nl_ret_or_ub N HN (hi X) (hi X))) as [ -> |(l & Hl)]; [now right|]. rewrite Hl. cbn [bind].
      destruct (proj1 (nl_ret_or_ub N HN (lo X) (lo X))) as [ -> |(u & Hu)]; [now right|]. rewrite Hu. cbn [bind].
      left. eauto.
  Qed.

  (** ** addition and subtraction *)
  Lemma add_nan_iff x y : aproper x -> aproper y ->
    (n_float N && ((is_ninf (alower x) && is_pinf (aupper y)) || (is_ninf (alower y) && is_pinf (aupper x))) = true <-> nan_pair n_add x y).
  Proof.
    intros Hx Hy. split.
    - intros H. apply andb_true_iff in H as [Hf H]. apply orb_true_iff in H as [H|H]; apply andb_true_iff in H as [H1 H2].
      + destruct (nl_float_total N HN Hf (alower x) (aupper y)) as (_ & _ & (s & Hs) & _).
        exists (alower x), (aupper y), s. split; [now apply (ael_lower HO)|]. split; [now apply (ael_upper HO)|]. split; [exact Hs|].
        apply nan_iff. intros Hok. apply (nl_add_nan N HN _ _ _ (ael_ok HO _ _ (ael_lower HO x Hx)) (ael_ok HO _ _ (ael_upper HO y Hy)) Hs) in Hok.
        tauto.
      + destruct (nl_float_total N HN Hf (aupper x) (alower y)) as (_ & _ & (s & Hs) & _).
        exists (aupper x), (alower y), s. split; [now apply (ael_upper HO)|]. split; [now apply (ael_lower HO)|]. split; [exact Hs|].
        apply nan_iff. intros Hok. apply (nl_add_nan N HN _ _ _ (ael_ok HO _ _ (ael_upper HO x Hx)) (ael_ok HO _ _ (ael_lower HO y Hy)) Hs) in Hok.
        tauto.
    - intros (u & v & s & Hu & Hv & Hs & Hn). rewrite nan_iff in Hn.
      destruct (n_float N) eqn:Hf; [|now destruct (Hn (nl_int_ok N HN Hf s))]. cbn.
      pose proof (nl_add_nan N HN u v s (ael_ok HO _ _ Hu) (ael_ok HO _ _ Hv) Hs) as Hiff.
      destruct (is_ninf (alower x) && is_pinf (aupper y)) eqn:E1; [reflexivity|]. destruct (is_ninf (alower y) && is_pinf (aupper x)) eqn:E2; [reflexivity|].
      exfalso. apply Hn, Hiff. destruct Hu as [U1 U2], Hv as [V1 V2]. intros [[H1 H2]|[H1 H2]].
      + rewrite (ninf_lower _ _ H1 U1), (pinf_upper _ _ H2 V2) in E1. discriminate.
      + rewrite (ninf_lower _ _ H2 V1), (pinf_upper _ _ H1 U2) in E2. discriminate.
  Qed.
  Lemma sub_nan_iff x y : aproper x -> aproper y ->
    (n_float N && ((is_ninf (alower x) && is_ninf (alower y)) || (is_pinf (aupper y) && is_pinf (aupper x))) = true <-> nan_pair n_sub x y).
  Proof.
    intros Hx Hy. split.
    - intros H. apply andb_true_iff in H as [Hf H]. apply orb_true_iff in H as [H|H]; apply andb_true_iff in H as [H1 H2].
      + destruct (nl_float_total N HN Hf (alower x) (alower y)) as (_ & _ & _ & (s & Hs) & _).
        exists (alower x), (alower y), s. split; [now apply (ael_lower HO)|]. split; [now apply (ael_lower HO)|]. split; [exact Hs|].
        apply nan_iff. intros Hok. apply (nl_sub_nan N HN _ _ _ (ael_ok HO _ _ (ael_lower HO x Hx)) (ael_ok HO _ _ (ael_lower HO y Hy)) Hs) in Hok.
        tauto.
      + destruct (nl_float_total N HN Hf (aupper x) (aupper y)) as (_ & _ & _ & (s & Hs) & _).
        exists (aupper x), (aupper y), s. split; [now apply (ael_upper HO)|]. split; [now apply (ael_upper HO)|]. split; [exact Hs|].
        apply nan_iff. intros Hok. apply (nl_sub_nan N HN _ _ _ (ael_ok HO _ _ (ael_upper HO x Hx)) (ael_ok HO _ _ (ael_upper HO y Hy)) Hs) in Hok.
        tauto.
    - intros (u & v & s & Hu & Hv & Hs & Hn). rewrite nan_iff in Hn.
      destruct (n_float N) eqn:Hf; [|now destruct (Hn (nl_int_ok N HN Hf s))]. cbn.
      pose proof (nl_sub_nan N HN u v s (ael_ok HO _ _ Hu) (ael_ok HO _ _ Hv) Hs) as Hiff.
      destruct (is_ninf (alower x) && is_ninf (alower y)) eqn:E1; [reflexivity|]. destruct (is_pinf (aupper y) && is_pinf (aupper x)) eqn:E2; [reflexivity|].
      exfalso. apply Hn, Hiff. destruct Hu as [U1 U2], Hv as [V1 V2]. intros [[H1 H2]|[H1 H2]].
      + rewrite (ninf_lower _ _ H1 U1), (ninf_lower _ _ H2 V1) in E1. discriminate.
      + rewrite (pinf_upper _ _ H2 V2), (pinf_upper _ _ H1 U2) in E2. discriminate.
  Qed.

  (** The shape shared by the binary operators: [dom] is "all pointwise results are defined".  *)
  Definition op_ok (f : N -> N -> outcome N) (F : outcome (ivl N)) x y : Prop :=
    (defined2 f x y -> exists Z, F = Ret Z) /\
    (forall Z, F = Ret Z -> defined2 f x y /\ (nan_pair f x y -> nan_ivl Z) /\ (~ nan_pair f x y -> is_hull (img2 f x y) Z)).

  Lemma not_nan_pair (f : N -> N -> outcome N) x y u v s : ~ nan_pair f x y -> ael x u -> ael y v -> f u v = Ret s -> ok s.
  Proof. intros H Hu Hv Hs. destruct (ok_dec s) as [|Hn]; [assumption|]. destruct H. exists u, v, s. auto. Qed.

  Lemma add_op_ok dbg x y : aproper x -> aproper y -> op_ok n_add (iadd dbg x y) x y.
  Proof.
    intros Hx Hy. unfold iadd, op_ok. rewrite (pre_ok dbg x y Hx Hy). cbn [bind].
    destruct (n_float N && ((is_ninf (alower x) && is_pinf (aupper y)) || (is_ninf (alower y) && is_pinf (aupper x)))) eqn:E.
    - assert (Hf : n_float N = true) by (destruct (n_float N); [reflexivity|discriminate]).
      apply (add_nan_iff x y Hx Hy) in E. destruct (nan_interval_nan Hf) as (Z & HZ & Hn). split; [eauto|].
      intros Z' HZ'. rewrite HZ in HZ'. injection HZ' as <-. split; [|tauto].
      intros u v _ _. destruct (nl_float_total N HN Hf u v) as (_ & _ & H & _). exact H.
    - assert (Hn : ~ nan_pair n_add x y).
      { intros H. apply (add_nan_iff x y Hx Hy) in H. rewrite H in E. discriminate. }
      assert (Hm : forall l u, n_add (alower x) (alower y) = Ret l -> n_add (aupper x) (aupper y) = Ret u -> mk l u = Ret (Ivl l u)).
      { intros l u Hl Hu. apply (mk_proper HO). apply (nl_add_mono N HN _ _ _ _ _ _ Hx Hy Hl Hu).
        - exact (not_nan_pair _ _ _ _ _ _ Hn (ael_lower HO x Hx) (ael_lower HO y Hy) Hl).
        - exact (not_nan_pair _ _ _ _ _ _ Hn (ael_upper HO x Hx) (ael_upper HO y Hy) Hu). }
      split.
      + intros Hd. destruct (Hd _ _ (ael_lower HO x Hx) (ael_lower HO y Hy)) as (l & Hl).
        destruct (Hd _ _ (ael_upper HO x Hx) (ael_upper HO y Hy)) as (u & Hu). rewrite Hl, Hu. cbn [bind]. rewrite (Hm l u Hl Hu). eauto.
      + intros Z HZ. destruct (n_add (alower x) (alower y)) as [l| | | |] eqn:Hl; try discriminate. cbn [bind] in HZ.
        destruct (n_add (aupper x) (aupper y)) as [u| | | |] eqn:Hu; try discriminate. cbn [bind] in HZ.
        rewrite (Hm l u eq_refl eq_refl) in HZ. injection HZ as <-. split; [|split; [tauto|]].
        * intros a b [A1 A2] [B1 B2]. exact (nl_add_def N HN _ _ _ _ _ _ _ _ A1 A2 B1 B2 Hl Hu).
        * intros _. apply hull_by_ends; cbn.
          -- intros s (a & b & Ha & Hb & Hs). assert (Hok := not_nan_pair _ _ _ _ _ _ Hn Ha Hb Hs).
             assert (Hokl := not_nan_pair _ _ _ _ _ _ Hn (ael_lower HO x Hx) (ael_lower HO y Hy) Hl).
             assert (Hoku := not_nan_pair _ _ _ _ _ _ Hn (ael_upper HO x Hx) (ael_upper HO y Hy) Hu).
             destruct Ha as [A1 A2], Hb as [B1 B2].
             split; [exact (nl_add_mono N HN _ _ _ _ _ _ A1 B1 Hl Hs Hokl Hok)|exact (nl_add_mono N HN _ _ _ _ _ _ A2 B2 Hs Hu Hok Hoku)].
          -- exists (alower x), (alower y). auto using (ael_lower HO).
          -- exists (aupper x), (aupper y). auto using (ael_upper HO).
  Qed.
  Lemma sub_op_ok dbg x y : aproper x -> aproper y -> op_ok n_sub (isub dbg x y) x y.
  Proof.
    intros Hx Hy. unfold isub, op_ok. rewrite (pre_ok dbg x y Hx Hy). cbn [bind].
    destruct (n_float N && ((is_ninf (alower x) && is_ninf (alower y)) || (is_pinf (aupper y) && is_pinf (aupper x)))) eqn:E.
    - assert (Hf : n_float N = true) by (destruct (n_float N); [reflexivity|discriminate]).
      apply (sub_nan_iff x y Hx Hy) in E. destruct (nan_interval_nan Hf) as (Z & HZ & Hn). split; [eauto|].
      intros Z' HZ'. rewrite HZ in HZ'. injection HZ' as <-. split; [|tauto].
      intros u v _ _. destruct (nl_float_total N HN Hf u v) as (_ & _ & _ & H & _). exact H.
    - assert (Hn : ~ nan_pair n_sub x y).
      { intros H. apply (sub_nan_iff x y Hx Hy) in H. rewrite H in E. discriminate. }
      assert (Hm : forall l u, n_sub (alower x) (aupper y) = Ret l -> n_sub (aupper x) (alower y) = Ret u -> mk l u = Ret (Ivl l u)).
      { intros l u Hl Hu. apply (mk_proper HO). apply (nl_sub_mono N HN _ _ _ _ _ _ Hx Hy Hl Hu).
        - exact (not_nan_pair _ _ _ _ _ _ Hn (ael_lower HO x Hx) (ael_upper HO y Hy) Hl).
        - exact (not_nan_pair _ _ _ _ _ _ Hn (ael_upper HO x Hx) (ael_lower HO y Hy) Hu). }
      split.
      + intros Hd. destruct (Hd _ _ (ael_lower HO x Hx) (ael_upper HO y Hy)) as (l & Hl).
        destruct (Hd _ _ (ael_upper HO x Hx) (ael_lower HO y Hy)) as (u & Hu). rewrite Hl, Hu. cbn [bind]. rewrite (Hm l u Hl Hu). eauto.
      + intros Z HZ. destruct (n_sub (alower x) (aupper y)) as [l| | | |] eqn:Hl; try discriminate. cbn [bind] in HZ.
        destruct (n_sub (aupper x) (alower y)) as [u| | | |] eqn:Hu; try discriminate. cbn [bind] in HZ.
        rewrite (Hm l u eq_refl eq_refl) in HZ. injection HZ as <-. split; [|split; [tauto|]].
        * intros a b [A1 A2] [B1 B2]. exact (nl_sub_def N HN _ _ _ _ _ _ _ _ A1 A2 B1 B2 Hl Hu).
        * intros _. apply hull_by_ends; cbn.
          -- intros s (a & b & Ha & Hb & Hs). assert (Hok := not_nan_pair _ _ _ _ _ _ Hn Ha Hb Hs).
             assert (Hokl := not_nan_pair _ _ _ _ _ _ Hn (ael_lower HO x Hx) (ael_upper HO y Hy) Hl).
             assert (Hoku := not_nan_pair _ _ _ _ _ _ Hn (ael_upper HO x Hx) (ael_lower HO y Hy) Hu).
             destruct Ha as [A1 A2], Hb as [B1 B2].
             split; [exact (nl_sub_mono N HN _ _ _ _ _ _ A1 B2 Hl Hs Hokl Hok)|exact (nl_sub_mono N HN _ _ _ _ _ _ A2 B1 Hs Hu Hok Hoku)].
          -- exists (alower x), (aupper y). auto using (ael_lower HO), (ael_upper HO).
          -- exists (aupper x), (alower y). auto using (ael_lower HO), (ael_upper HO).
  Qed.

  (** ** corner hulls *)
  Definition between (z p q : N) : Prop := (o_le p z = true /\ o_le z q = true) \/ (o_le q z = true /\ o_le z p = true).

  Lemma hull2_spec p q : ok p -> ok q -> exists Z, hull2 p q = Ret Z /\ (lo Z = p \/ lo Z = q) /\ (hi Z = p \/ hi Z = q) /\ forall z, between z p q -> el Z z.
  Proof.
    intros Hp Hq. exists (Ivl (omin p q) (omax p q)). unfold hull2. split; [apply (mk_proper HO), (omin_le_omax HO); assumption|].
    cbn. split; [apply omin_cases|]. split; [apply omax_cases|].
    pose proof (omin_l HO p q Hp Hq). pose proof (omin_r HO p q Hp Hq). pose proof (omax_l HO p q Hp Hq). pose proof (omax_r HO p q Hp Hq).
    intros z [[H3 H4]|[H3 H4]]; split; cbn; ord HO.
  Qed.
  Lemma hull4_spec p1 p2 p3 p4 : ok p1 -> ok p2 -> ok p3 -> ok p4 ->
    exists Z, hull4 p1 p2 p3 p4 = Ret Z /\ (lo Z = p1 \/ lo Z = p2 \/ lo Z = p3 \/ lo Z = p4) /\ (hi Z = p1 \/ hi Z = p2 \/ hi Z = p3 \/ hi Z = p4)
      /\ forall z a b, between a p1 p2 -> between b p3 p4 -> between z a b -> el Z z.
  Proof.
    intros H1 H2 H3 H4. exists (Ivl (omin (omin p1 p2) (omin p3 p4)) (omax (omax p1 p2) (omax p3 p4))). unfold hull4.
    pose proof (omin_l HO p1 p2 H1 H2). pose proof (omin_r HO p1 p2 H1 H2). pose proof (omax_l HO p1 p2 H1 H2). pose proof (omax_r HO p1 p2 H1 H2).
    pose proof (omin_l HO p3 p4 H3 H4). pose proof (omin_r HO p3 p4 H3 H4). pose proof (omax_l HO p3 p4 H3 H4). pose proof (omax_r HO p3 p4 H3 H4).
    assert (K1 : ok (omin p1 p2)) by (destruct (omin_cases p1 p2) as [ -> | -> ]; assumption).
    assert (K2 : ok (omin p3 p4)) by (destruct (omin_cases p3 p4) as [ -> | -> ]; assumption).
    assert (K3 : ok (omax p1 p2)) by (destruct (omax_cases p1 p2) as [ -> | -> ]; assumption).
    assert (K4 : ok (omax p3 p4)) by (destruct (omax_cases p3 p4) as [ -> | -> ]; assumption).
    pose proof (omin_l HO _ _ K1 K2) as M1. pose proof (omin_r HO _ _ K1 K2) as M2. pose proof (omax_l HO _ _ K3 K4) as M3. pose proof (omax_r HO _ _ K3 K4) as M4.
    set (l := omin (omin p1 p2) (omin p3 p4)) in *. set (u := omax (omax p1 p2) (omax p3 p4)) in *.
    assert (L1 : o_le l p1 = true) by (letr HO). assert (L2 : o_le l p2 = true) by (letr HO).
    assert (L3 : o_le l p3 = true) by (letr HO). assert (L4 : o_le l p4 = true) by (letr HO).
    assert (U1 : o_le p1 u = true) by (letr HO). assert (U2 : o_le p2 u = true) by (letr HO).
    assert (U3 : o_le p3 u = true) by (letr HO). assert (U4 : o_le p4 u = true) by (letr HO).
    split; [apply (mk_proper HO); letr HO|]. cbn. split; [|split].
    - subst l. destruct (omin_cases (omin p1 p2) (omin p3 p4)) as [ -> | -> ]; [destruct (omin_cases p1 p2) as [ -> | -> ]|destruct (omin_cases p3 p4) as [ -> | -> ]]; tauto.
    - subst u. destruct (omax_cases (omax p1 p2) (omax p3 p4)) as [ -> | -> ]; [destruct (omax_cases p1 p2) as [ -> | -> ]|destruct (omax_cases p3 p4) as [ -> | -> ]]; tauto.
    - intros z a b Ha Hb Hz.
      assert (A : o_le l a = true /\ o_le a u = true) by (destruct Ha as [[A1 A2]|[A1 A2]]; split; letr HO).
      assert (B : o_le l b = true /\ o_le b u = true) by (destruct Hb as [[A1 A2]|[A1 A2]]; split; letr HO).
      destruct A, B. destruct Hz as [[A1 A2]|[A1 A2]]; split; cbn; letr HO.
  Qed.

  (** A partial binary function that is monotone in each argument (in a direction that may depend on the other one),
      on the box [x] x [y]. *)
  Definition bimonotone (f : N -> N -> outcome N) x y : Prop :=
    (forall u1 u u2 c p1 p2, ael x u1 -> ael x u2 -> ael y c -> o_le u1 u = true -> o_le u u2 = true -> f u1 c = Ret p1 -> f u2 c = Ret p2 ->
       exists p, f u c = Ret p /\ between p p1 p2) /\
    (forall c u1 u u2 p1 p2, ael x c -> ael y u1 -> ael y u2 -> o_le u1 u = true -> o_le u u2 = true -> f c u1 = Ret p1 -> f c u2 = Ret p2 ->
       exists p, f c u = Ret p /\ between p p1 p2).

  Lemma corners_ok (f : N -> N -> outcome N) x y : aproper x -> aproper y -> bimonotone f x y -> ~ nan_pair f x y ->
    op_ok f (match x, y with
         | Sc a, _ => v1 <- f a (alower y) ;; v2 <- f a (aupper y) ;; hull2 v1 v2
         | Iv X, Sc b => v1 <- f (lo X) b ;; v2 <- f (hi X) b ;; hull2 v1 v2
         | Iv X, Iv Y =>
             v1 <- f (lo X) (lo Y) ;; v2 <- f (lo X) (hi Y) ;;
             v3 <- f (hi X) (lo Y) ;; v4 <- f (hi X) (hi Y) ;; hull4 v1 v2 v3 v4
         end) x y.
  Proof.
    intros Hx Hy [Hm1 Hm2] Hn.
    pose proof (ael_lower HO x Hx) as Lx. pose proof (ael_upper HO x Hx) as Ux.
    pose proof (ael_lower HO y Hy) as Ly. pose proof (ael_upper HO y Hy) as Uy.
    assert (Hnn := not_nan_pair f x y).
    assert (Hall : forall p1 p2 p3 p4, f (alower x) (alower y) = Ret p1 -> f (alower x) (aupper y) = Ret p2 ->
      f (aupper x) (alower y) = Ret p3 -> f (aupper x) (aupper y) = Ret p4 ->
      forall u v, ael x u -> ael y v -> exists p a b, f u v = Ret p /\ between p a b /\ between a p1 p2 /\ between b p3 p4).
    { intros p1 p2 p3 p4 H1 H2 H3 H4 u v Hu Hv. pose proof Hu as [U1 U2]. pose proof Hv as [V1 V2].
      destruct (Hm2 _ _ _ _ _ _ Lx Ly Uy V1 V2 H1 H2) as (a & Ha & Ba). destruct (Hm2 _ _ _ _ _ _ Ux Ly Uy V1 V2 H3 H4) as (b & Hb & Bb).
      destruct (Hm1 _ _ _ _ _ _ Lx Ux Hv U1 U2 Ha Hb) as (p & Hp & Bp). exists p, a, b. auto. }
    split.
    - intros Hd. destruct (Hd _ _ Lx Ly) as (p1 & H1), (Hd _ _ Lx Uy) as (p2 & H2), (Hd _ _ Ux Ly) as (p3 & H3), (Hd _ _ Ux Uy) as (p4 & H4).
      assert (O1 := Hnn _ _ _ Hn Lx Ly H1). assert (O2 := Hnn _ _ _ Hn Lx Uy H2). assert (O3 := Hnn _ _ _ Hn Ux Ly H3). assert (O4 := Hnn _ _ _ Hn Ux Uy H4).
      destruct x as [a|X]; [|destruct y as [b|Y]]; cbn in H1, H2, H3, H4 |- *.
      + rewrite H1. cbn [bind]. rewrite H2. cbn [bind]. destruct (hull2_spec p1 p2 O1 O2) as (Z & -> & _). eauto.
      + rewrite H1. cbn [bind]. rewrite H3. cbn [bind]. destruct (hull2_spec p1 p3 O1 O3) as (Z & -> & _). eauto.
      + rewrite H1, H2, H3, H4. cbn [bind]. destruct (hull4_spec p1 p2 p3 p4 O1 O2 O3 O4) as (Z & -> & _). eauto.
    - intros Z HZ.
      assert (Hc : exists p1 p2 p3 p4, f (alower x) (alower y) = Ret p1 /\ f (alower x) (aupper y) = Ret p2 /\
        f (aupper x) (alower y) = Ret p3 /\ f (aupper x) (aupper y) = Ret p4 /\
        (lo Z = p1 \/ lo Z = p2 \/ lo Z = p3 \/ lo Z = p4) /\ (hi Z = p1 \/ hi Z = p2 \/ hi Z = p3 \/ hi Z = p4)
        /\ forall z a b, between a p1 p2 -> between b p3 p4 -> between z a b -> el Z z).
      { destruct x as [a|X]; [|destruct y as [b|Y]]; cbn in HZ, Hx, Hy, Lx, Ux, Ly, Uy |- *.
        - destruct (f a (alower y)) as [p1| | | |] eqn:H1; try discriminate. cbn [bind] in HZ.
          destruct (f a (aupper y)) as [p2| | | |] eqn:H2; try discriminate. cbn [bind] in HZ.
          assert (O1 := Hnn _ _ _ Hn Lx Ly H1). assert (O2 := Hnn _ _ _ Hn Lx Uy H2).
          destruct (hull2_spec p1 p2 O1 O2) as (Z' & HZ' & HL & HU & Hel). rewrite HZ' in HZ. injection HZ as <-.
          exists p1, p2, p1, p2. do 4 (split; [reflexivity || assumption|]). split; [tauto|]. split; [tauto|].
          intros z c d Hc Hd Hz. pose proof (Hel _ Hc) as [C1 C2]. pose proof (Hel _ Hd) as [D1 D2].
          destruct Hz as [[Z1 Z2]|[Z1 Z2]]; split; letr HO.
        - destruct (f (lo X) b) as [p1| | | |] eqn:H1; try discriminate. cbn [bind] in HZ.
          destruct (f (hi X) b) as [p2| | | |] eqn:H2; try discriminate. cbn [bind] in HZ.
          assert (O1 := Hnn _ _ _ Hn Lx Ly H1). assert (O2 := Hnn _ _ _ Hn Ux Ly H2).
          destruct (hull2_spec p1 p2 O1 O2) as (Z' & HZ' & HL & HU & Hel). rewrite HZ' in HZ. injection HZ as <-.
          exists p1, p1, p2, p2. do 4 (split; [reflexivity || assumption|]). split; [tauto|]. split; [tauto|].
          intros z c d Hc Hd Hz. assert (E1 : o_le c p1 = true /\ o_le p1 c = true) by (unfold between in Hc; tauto).
          assert (E2 : o_le d p2 = true /\ o_le p2 d = true) by (unfold between in Hd; tauto). destruct E1 as [C1 C2], E2 as [D1 D2].
          apply Hel. destruct Hz as [[Z1 Z2]|[Z1 Z2]]; [left|right]; split; letr HO.
        - destruct (f (lo X) (lo Y)) as [p1| | | |] eqn:H1; try discriminate. cbn [bind] in HZ.
          destruct (f (lo X) (hi Y)) as [p2| | | |] eqn:H2; try discriminate. cbn [bind] in HZ.
          destruct (f (hi X) (lo Y)) as [p3| | | |] eqn:H3; try discriminate. cbn [bind] in HZ.
          destruct (f (hi X) (hi Y)) as [p4| | | |] eqn:H4; try discriminate. cbn [bind] in HZ.
          assert (O1 := Hnn _ _ _ Hn Lx Ly H1). assert (O2 := Hnn _ _ _ Hn Lx Uy H2). assert (O3 := Hnn _ _ _ Hn Ux Ly H3). assert (O4 := Hnn _ _ _ Hn Ux Uy H4).
          destruct (hull4_spec p1 p2 p3 p4 O1 O2 O3 O4) as (Z' & HZ' & HL & HU & Hel). rewrite HZ' in HZ. injection HZ as <-.
          exists p1, p2, p3, p4. auto 12. }
      destruct Hc as (p1 & p2 & p3 & p4 & H1 & H2 & H3 & H4 & HL & HU & Hel).
      assert (Hp := Hall _ _ _ _ H1 H2 H3 H4). split; [|split; [tauto|intros _]].
      + intros u v Hu Hv. destruct (Hp u v Hu Hv) as (p & a & b & H & _). eauto.
      + apply hull_by_ends.
        * intros p (u & v & Hu & Hv & Huv). destruct (Hp u v Hu Hv) as (p' & a & b & H & B1 & B2 & B3). rewrite Huv in H. injection H as <-. eapply Hel; eauto.
        * destruct HL as [ -> |[ -> |[ -> | -> ]]]; unfold img2; eauto 10.
        * destruct HU as [ -> |[ -> |[ -> | -> ]]]; unfold img2; eauto 10.
  Qed.

  Lemma op_ok_nan (f : N -> N -> outcome N) x y : n_float N = true -> (forall u v, exists z, f u v = Ret z) -> nan_pair f x y -> op_ok f nan_interval x y.
  Proof.
    intros Hf Hd Hp. destruct (nan_interval_nan Hf) as (Z & HZ & Hn). split; [eauto|].
    intros Z' HZ'. rewrite HZ in HZ'. injection HZ' as <-. split; [intros u v _ _; apply Hd|]. tauto.
  Qed.

  (** ** multiplication *)
  Lemma mul_nan_iff x y : aproper x -> aproper y ->
    (n_float N && (((is_ninf (alower x) || is_pinf (aupper x)) && acontains y n_zero)
                   || (acontains x n_zero && (is_ninf (alower y) || is_pinf (aupper y)))) = true <-> nan_pair n_mul x y).
  Proof.
    intros Hx Hy. rewrite andb_true_iff, orb_true_iff, !andb_true_iff, (ainfinite_iff x Hx), (ainfinite_iff y Hy), (acontains_zero x Hx), (acontains_zero y Hy). split.
    - intros [Hf [[(u & Hu & Iu) (v & Hv & Zv)]|[(u & Hu & Zu) (v & Hv & Iv)]]];
        destruct (nl_float_total N HN Hf u v) as (_ & _ & _ & _ & (s & Hs) & _); exists u, v, s; (split; [exact Hu|]); (split; [exact Hv|]); (split; [exact Hs|]);
        apply nan_iff; rewrite (nl_mul_nan N HN u v s (ael_ok HO _ _ Hu) (ael_ok HO _ _ Hv) Hs); tauto.
    - intros (u & v & s & Hu & Hv & Hs & Hn). rewrite nan_iff in Hn.
      destruct (n_float N) eqn:Hf; [|now destruct (Hn (nl_int_ok N HN Hf s))]. split; [reflexivity|].
      rewrite (nl_mul_nan N HN u v s (ael_ok HO _ _ Hu) (ael_ok HO _ _ Hv) Hs) in Hn.
      destruct (o_eq u n_zero) eqn:E1.
      + right. split; [exists u; auto|]. exists v. split; [exact Hv|].
        destruct (is_ninf v || is_pinf v) eqn:E2; [now apply infinite_b|]. exfalso. apply Hn. rewrite <- !infinite_b, E2.
        intros [[H1 H2]|[_ H]]; [|discriminate]. apply infinite_b in H1. exact (inf_not_zero u H1 E1).
      + left. destruct (is_ninf u || is_pinf u) eqn:E2.
        * split; [exists u; split; [exact Hu|now apply infinite_b]|]. exists v. split; [exact Hv|].
          unfold is_zero. destruct (o_eq v n_zero) eqn:E3; [reflexivity|]. exfalso. apply Hn. unfold is_zero. rewrite E1, E3. intuition discriminate.
        * exfalso. apply Hn. rewrite <- !infinite_b, E2. unfold is_zero. rewrite E1. intuition discriminate.
  Qed.
End Arith.
