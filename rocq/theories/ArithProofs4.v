(** sgn, products with sign sets, if_else, histories, degenerate intervals, isotonicity, algebraic laws. *)
From Coq Require Import Bool List Permutation NArith.
From Verif Require Import Outcome SetModel Spec SetProofs SetProofs2 Num NumLaws IntervalModel IvlSpec IvlProofs ArithProofs ArithProofs2 ArithProofs3.
Import ListNotations.

Section Arith.
  Context {N : num} (HN : num_laws N).
  Let HO := nl_ord N HN.
  Implicit Types (X Y Z : ivl N) (u v w : N) (x y : arg N).

  (** sgn *)
  Lemma isgn_exact dbg X : proper X ->
    exists s, isgn dbg X = Ret s /\ wf_set s /\ forall t, member s t <-> exists u, el X u /\ has_sign u t.
  Proof.
    intros HX. unfold isgn. rewrite (pre1_ok HN dbg X HX). cbn [bind]. eexists. split; [reflexivity|].
    pose proof (ok_zero HN) as Oz. pose proof (el_lower HO X HX) as Lx. pose proof (el_upper HO X HX) as Ux.
    assert (P : o_lt n_zero (hi X) = true <-> exists u, el X u /\ has_sign u positive_sign).
    { split; [intros H; exists (hi X); auto|]. intros (u & [U1 U2] & H). cbn in H. ord HO. }
    assert (Q : o_lt (lo X) n_zero = true <-> exists u, el X u /\ has_sign u negative_sign).
    { split; [intros H; exists (lo X); auto|]. intros (u & [U1 U2] & H). cbn in H. ord HO. }
    assert (R : o_le (lo X) n_zero && o_le n_zero (hi X) = true <-> exists u, el X u /\ has_sign u zero_sign).
    { rewrite andb_true_iff. split; [intros [H1 H2]; exists n_zero; split; [split; auto|cbn; ord HO]|]. intros (u & [U1 U2] & H). cbn in H. split; ord HO. }
    assert (E : forall t, ~ member (@set_empty sign_enum) t) by (intros t (i & _ & H); now rewrite N.bits_0 in H).
    assert (W : wf_set (@set_empty sign_enum)) by (intros i _; apply N.bits_0).
    assert (PF : o_lt n_zero (hi X) = false -> ~ exists u, el X u /\ has_sign u positive_sign) by (intros H K; apply P in K; congruence).
    assert (QF : o_lt (lo X) n_zero = false -> ~ exists u, el X u /\ has_sign u negative_sign) by (intros H K; apply Q in K; congruence).
    assert (RF : o_le (lo X) n_zero && o_le n_zero (hi X) = false -> ~ exists u, el X u /\ has_sign u zero_sign) by (intros H K; apply R in K; congruence).
    destruct (o_lt n_zero (hi X)), (o_lt (lo X) n_zero), (o_le (lo X) n_zero && o_le n_zero (hi X));
      (split; [repeat apply sassign_wf; exact W|]);
      try (pose proof (proj1 P eq_refl)); try (pose proof (proj1 Q eq_refl)); try (pose proof (proj1 R eq_refl));
      try specialize (PF eq_refl); try specialize (QF eq_refl); try specialize (RF eq_refl);
      intros t; rewrite ?sassign_member; pose proof (E t); destruct t; intuition (try discriminate; auto).
  Qed.

  (** the default interval *)
  Lemma default_unassigned : assigned (@ivl_default N) = false.
  Proof. unfold assigned, ivl_default. cbn. destruct (nl_zero N HN). assert (H1 : o_lt (@n_bot N) n_top = true) by ord HO. now rewrite H1. Qed.
  Lemma default_assign Y : proper Y -> exists Z, iassign ivl_default Y = Ret Z /\ is_hull (el Y) Z.
  Proof.
    intros HY. unfold iassign. rewrite (proper_assigned HO Y HY). eexists. split; [reflexivity|]. unfold assign_bounds, ivl_default. cbn.
    pose proof (el_lower HO Y HY) as Ly. pose proof (el_upper HO Y HY) as Uy.
    pose proof (nl_top N HN _ (el_ok HO _ _ Ly)) as T. pose proof (nl_bot N HN _ (el_ok HO _ _ Uy)) as B.
    assert (E1 : o_eq (lo Y) (omin n_top (lo Y)) = true) by (unfold omin; destruct (o_lt (lo Y) n_top) eqn:E; ord HO).
    assert (E2 : o_eq (hi Y) (omax n_bot (hi Y)) = true) by (unfold omax; destruct (o_lt n_bot (hi Y)) eqn:E; ord HO).
    split; [|split; cbn; eauto]. intros v [V1 V2]. split; cbn; ord HO.
  Qed.
  Lemma default_assign_value v : ok v -> is_hull (fun u => o_eq v u = true) (iassign_value ivl_default v).
  Proof.
    intros Hv. assert (HY : proper (ivl_of v)) by exact Hv. destruct (default_assign (ivl_of v) HY) as (Z & HZ & Hh).
    unfold iassign in HZ. rewrite (proper_assigned HO _ HY) in HZ. cbn in HZ. injection HZ as <-.
    eapply (is_hull_ext); [|exact Hh]. intros u. unfold el. cbn. split; [intros [H1 H2]; ord HO|intros H; split; ord HO].
  Qed.
  Lemma eq_el v u : o_eq v u = true <-> el (ivl_of v) u.
  Proof. unfold el. cbn. split; [intros H; split; ord HO|intros [H1 H2]; ord HO]. Qed.
  Lemma assign_value_ivl X v : assign_bounds X v v = iassign_value X v. Proof. reflexivity. Qed.
  Lemma assign_value_hull X v : proper X -> ok v -> is_hull (fun u => el X u \/ o_eq v u = true) (iassign_value X v).
  Proof.
    intros HX Hv. eapply (is_hull_ext); [|exact (assign_bounds_hull HO X (ivl_of v) HX Hv)]. intros u. cbn. now rewrite eq_el.
  Qed.

  (** a step that unites a part into a result that is empty so far or a hull *)
  Definition holds (P : N -> Prop) X : Prop := (X = ivl_default /\ forall v, ~ P v) \/ is_hull P X.
  Lemma holds_ext (P Q : N -> Prop) X : (forall v, P v <-> Q v) -> holds P X -> holds Q X.
  Proof.
    intros H [[E K]|K]; [left|right; eapply is_hull_ext; eauto]. split; [exact E|]. intros v Hv. apply (K v), H, Hv.
  Qed.
  Lemma holds_default : holds (fun _ => False) (@ivl_default N).
  Proof. left. auto. Qed.
  Lemma hull_union (P Q : N -> Prop) X Y Z : is_hull P X -> is_hull Q Y -> is_hull (fun v => el X v \/ el Y v) Z -> is_hull (fun v => P v \/ Q v) Z.
  Proof.
    intros (A1 & (v1 & Pv1 & E1) & (w1 & Pw1 & F1)) (A2 & (v2 & Pv2 & E2) & (w2 & Pw2 & F2)) (A3 & (v3 & Pv3 & E3) & (w3 & Pw3 & F3)).
    split; [|split].
    - intros v [H|H]; apply A3; auto.
    - destruct Pv3 as [[H1 H2]|[H1 H2]].
      + exists v1. split; [auto|]. destruct (A3 v1 (or_introl (A1 _ Pv1))) as [H3 H4]. clear - HO H1 H3 E1 E3. ord HO.
      + exists v2. split; [auto|]. destruct (A3 v2 (or_intror (A2 _ Pv2))) as [H3 H4]. clear - HO H1 H3 E2 E3. ord HO.
    - destruct Pw3 as [[H1 H2]|[H1 H2]].
      + exists w1. split; [auto|]. destruct (A3 w1 (or_introl (A1 _ Pw1))) as [H3 H4]. clear - HO H2 H4 F1 F3. ord HO.
      + exists w2. split; [auto|]. destruct (A3 w2 (or_intror (A2 _ Pw2))) as [H3 H4]. clear - HO H2 H4 F2 F3. ord HO.
  Qed.
  Lemma holds_assign (P Q : N -> Prop) X Y : holds P X -> is_hull Q Y -> exists Z, iassign X Y = Ret Z /\ is_hull (fun v => P v \/ Q v) Z.
  Proof.
    intros [[-> HP]|HP] HQ; pose proof (is_hull_proper HO _ _ HQ) as HY.
    - destruct (default_assign Y HY) as (Z & HZ & Hh). exists Z. split; [exact HZ|].
      destruct HQ as (A2 & (v2 & Pv2 & E2) & (w2 & Pw2 & F2)). destruct Hh as (A3 & (v3 & [V1 V2] & E3) & (w3 & [W1 W2] & F3)).
      destruct (A3 v2 (A2 _ Pv2)) as [G1 G2]. destruct (A3 w2 (A2 _ Pw2)) as [G3 G4]. split; [|split].
      + intros v [H|H]; [destruct (HP _ H)|apply A3; auto].
      + exists v2. split; [auto|]. clear - HO E2 E3 V1 G1. ord HO.
      + exists w2. split; [auto|]. clear - HO F2 F3 W2 G4. ord HO.
    - destruct (iassign_hull HO X Y (is_hull_proper HO _ _ HP) HY) as (Z & HZ & Hh). exists Z. split; [exact HZ|]. eapply hull_union; eauto.
  Qed.
  Lemma holds_assign_value (P : N -> Prop) X v : holds P X -> ok v -> is_hull (fun u => P u \/ o_eq v u = true) (iassign_value X v).
  Proof.
    intros HP Hv. destruct (holds_assign P (el (ivl_of v)) X (ivl_of v) HP (is_hull_self HO (ivl_of v) Hv)) as (Z & HZ & Hh).
    unfold iassign in HZ. rewrite (proper_assigned HO (ivl_of v) Hv) in HZ. cbn in HZ. injection HZ as <-.
    eapply is_hull_ext; [|exact Hh]. intros u. cbn. now rewrite eq_el.
  Qed.

  (** products with sets of signs *)
  Lemma smem (s : sset) t : scontains s t = true <-> member s t. Proof. symmetry. apply smember_iff. Qed.
  Definition sign_img (s : sset) X z : Prop := exists t u, member s t /\ el X u /\ sign_times t u = Ret z.
  Lemma signs_mul_hull dbg (s : sset) X : proper X ->
    ((member s negative_sign -> defined1 n_neg X) -> exists Z, signs_mul_ivl dbg s X = Ret Z)
    /\ forall Z, signs_mul_ivl dbg s X = Ret Z ->
       (member s negative_sign -> defined1 n_neg X) /\ ((exists t, member s t) -> is_hull (sign_img s X) Z)
       /\ ((forall t, ~ member s t) -> Z = ivl_default).
  Proof.
    intros HX. unfold signs_mul_ivl.
    assert (A : exists r1, (if scontains s positive_sign then iassign ivl_default X else Ret ivl_default) = Ret r1
      /\ holds (fun z => member s positive_sign /\ el X z) r1 /\ (~ member s positive_sign -> r1 = ivl_default)).
    { destruct (scontains s positive_sign) eqn:E.
      - apply smem in E. destruct (default_assign X HX) as (r & Hr & Hh). exists r. split; [exact Hr|]. split; [|tauto]. right. eapply is_hull_ext; [|exact Hh]. tauto.
      - exists ivl_default. split; [reflexivity|]. split; [|auto]. left. split; [reflexivity|]. intros v [H _]. apply smem in H. congruence. }
    destruct A as (r1 & -> & H1 & D1). cbn [bind].
    assert (B : forall r2, (if scontains s negative_sign then nY <- ineg dbg X ;; iassign r1 nY else Ret r1) = Ret r2 ->
      (member s negative_sign -> defined1 n_neg X) /\ holds (fun z => (member s positive_sign /\ el X z) \/ (member s negative_sign /\ img1 n_neg X z)) r2
      /\ (~ member s positive_sign -> ~ member s negative_sign -> r2 = ivl_default)).
    { intros r2. destruct (scontains s negative_sign) eqn:E.
      - apply smem in E. destruct (neg_hull HN dbg X HX) as (_ & G2 & _). destruct (ineg dbg X) as [nX| | | |] eqn:En; try discriminate. cbn [bind].
        destruct (G2 nX eq_refl) as (Gd & Gh). intros Hr. split; [auto|].
        destruct (holds_assign _ _ _ _ H1 Gh) as (Z & HZ & Hh). rewrite Hr in HZ. injection HZ as <-. split; [|tauto]. right.
        eapply is_hull_ext; [|exact Hh]. cbn. tauto.
      - assert (E' : ~ member s negative_sign) by (intros H; apply smem in H; congruence).
        intros Hr. injection Hr as <-. split; [tauto|]. split; [|auto]. eapply holds_ext; [|exact H1]. cbn. tauto. }
    split.
    - intros Hd. destruct (scontains s negative_sign) eqn:E; [|cbn; eauto]. apply smem in E.
      destruct (neg_hull HN dbg X HX) as (G1 & G2 & _). destruct (G1 (Hd E)) as (nX & En). rewrite En in *. cbn [bind]. destruct (G2 nX eq_refl) as (_ & Gh).
      destruct (holds_assign _ _ _ _ H1 Gh) as (Z & HZ & _). rewrite HZ. cbn. eauto.
    - intros Z HZ. destruct (if scontains s negative_sign then nY <- ineg dbg X ;; iassign r1 nY else Ret r1) as [r2| | | |] eqn:Er; try discriminate.
      cbn [bind] in HZ. injection HZ as <-. destruct (B r2 eq_refl) as (Hd & H2 & D2). split; [exact Hd|].
      assert (Himg : forall z, sign_img s X z <-> (((member s positive_sign /\ el X z) \/ (member s negative_sign /\ img1 n_neg X z)) \/ (member s zero_sign /\ z = n_zero))).
      { intros z. split.
        - intros (t & u & Ht & Hu & Hz). destruct t; cbn in Hz.
          + left. right. split; [auto|]. exists u. auto.
          + right. injection Hz as <-. auto.
          + left. left. injection Hz as <-. auto.
        - intros [[[Ht Hz]|[Ht (u & Hu & Hz)]]|[Ht ->]].
          + exists positive_sign, z. auto.
          + exists negative_sign, u. auto.
          + exists zero_sign, (lo X). split; [auto|]. split; [apply (el_lower HO X HX)|reflexivity]. }
      destruct (scontains s zero_sign) eqn:E.
      + apply smem in E. split; [intros _|intros H; destruct (H _ E)].
        pose proof (holds_assign_value _ _ _ H2 (ok_zero HN)) as (K1 & (a & Pa & Ea) & (b & Pb & Eb)).
        assert (Z0 : sign_img s X n_zero) by (apply Himg; auto).
        split; [|split].
        * intros z Hz. apply Himg in Hz. apply K1. destruct Hz as [Hz|[_ ->]]; [auto|]. right. apply (le_zero_zero HN).
        * destruct Pa as [Pa|Pa]; [exists a; split; [apply Himg; auto|exact Ea]|]. exists n_zero. split; [exact Z0|]. clear - HO Pa Ea. ord HO.
        * destruct Pb as [Pb|Pb]; [exists b; split; [apply Himg; auto|exact Eb]|]. exists n_zero. split; [exact Z0|]. clear - HO Pb Eb. ord HO.
      + assert (E' : ~ member s zero_sign) by (intros H; apply smem in H; congruence). split.
        * intros (t & Ht). destruct H2 as [[-> H2]|H2].
          -- exfalso. destruct t; [|contradiction|].
             ++ destruct (Hd Ht _ (el_lower HO X HX)) as (z & Hz). apply (H2 z). right. split; [auto|]. exists (lo X). split; [apply (el_lower HO X HX)|exact Hz].
             ++ apply (H2 (lo X)). left. split; [auto|apply (el_lower HO X HX)].
          -- eapply is_hull_ext; [|exact H2]. intros z. rewrite Himg. tauto.
        * intros H. apply D2; apply H.
  Qed.
  Lemma scalar_signs dbg v (s : sset) : ok v ->
    (forall Z, scalar_mul_signs v s = Ret Z -> exists Z', signs_mul_ivl dbg s (ivl_of v) = Ret Z' /\ (Z = Z' \/ matches_ivl Z Z' = true))
    /\ (forall Z', signs_mul_ivl dbg s (ivl_of v) = Ret Z' -> exists Z, scalar_mul_signs v s = Ret Z).
  Proof.
    intros Hv. assert (HY : proper (ivl_of v)) by exact Hv. unfold scalar_mul_signs, signs_mul_ivl.
    assert (As : forall X u, ok u -> iassign X (ivl_of u) = Ret (iassign_value X u)).
    { intros X u Hu. unfold iassign. now rewrite (proper_assigned HO (ivl_of u) Hu). }
    assert (Ng : ineg dbg (ivl_of v) = nv <- n_neg v ;; Ret (ivl_of nv)).
    { unfold ineg. rewrite (pre1_ok HN dbg _ HY). cbn. destruct (n_neg v) as [nv| | | |] eqn:E; cbn; auto. rewrite (mk_proper HO nv nv (nl_neg_ok N HN _ _ Hv E)). reflexivity. }
    rewrite (As ivl_default v Hv), Ng.
    set (r1 := if scontains s positive_sign then iassign_value ivl_default v else ivl_default).
    assert (E1 : (if scontains s positive_sign then Ret (iassign_value ivl_default v) else Ret ivl_default) = Ret r1) by (subst r1; now destruct (scontains s positive_sign)).
    rewrite E1. cbn [bind].
    assert (H1 : holds (fun z => member s positive_sign /\ o_eq v z = true) r1).
    { subst r1. destruct (scontains s positive_sign) eqn:E.
      - apply smem in E. right. eapply is_hull_ext; [|exact (default_assign_value v Hv)]. tauto.
      - left. split; [reflexivity|]. intros z [H _]. apply smem in H. congruence. }
    destruct (scontains s negative_sign), (scontains s zero_sign); cbn [bind];
      try (split; [intros Z HZ; exists Z; split; [exact HZ|]; auto|intros Z HZ; exists Z; exact HZ]).
    - destruct (n_neg v) as [nv| | | |] eqn:E; cbn [bind]; try (split; intros; discriminate).
      assert (On := nl_neg_ok N HN _ _ Hv E). rewrite (As r1 nv On). cbn [bind]. split; [|eauto]. intros Z HZ. injection HZ as <-. eexists. split; [reflexivity|]. right.
      pose proof (holds_assign_value _ _ _ (or_intror (holds_assign_value _ _ _ H1 (ok_zero HN))) On) as A.
      pose proof (holds_assign_value _ _ _ (or_intror (holds_assign_value _ _ _ H1 On)) (ok_zero HN)) as B.
      apply (matches_ivl_iff HO); [exact (is_hull_proper HO _ _ A)|exact (is_hull_proper HO _ _ B)|].
      eapply (is_hull_unique HO); [exact A|]. eapply is_hull_ext; [|exact B]. cbn. tauto.
    - destruct (n_neg v) as [nv| | | |] eqn:E; cbn [bind]; try (split; intros; discriminate).
      assert (On := nl_neg_ok N HN _ _ Hv E). rewrite (As r1 nv On). cbn [bind]. split; [|eauto]. intros Z HZ. injection HZ as <-. eexists. split; [reflexivity|]. auto.
  Qed.
  Lemma signs_empty dbg X (s : sset) : (forall t, ~ member s t) -> signs_mul_ivl dbg s X = Ret ivl_default.
  Proof.
    intros H. unfold signs_mul_ivl. assert (E : forall t, scontains s t = false). { intros t. destruct (scontains s t) eqn:E; auto. apply smem in E. destruct (H t E). }
    now rewrite !E.
  Qed.
  (** [sign_times] is multiplication by the value of the sign, for finite numbers *)
  Lemma sign_times_mul t u : ok u -> ~ infinite u -> forall z, sign_times t u = Ret z -> exists p, n_mul (sign_value t) u = Ret p /\ same_value p z.
  Proof.
    intros Hu Hi z Hz. unfold same_value. destruct t; cbn in *.
    - destruct (nl_mul_mone_def N HN u z Hz) as (p & Hp). exists p. split; [exact Hp|]. destruct (nl_mul_mone N HN u p Hp) as (z' & Hz' & E). rewrite Hz in Hz'. injection Hz' as <-. auto.
    - injection Hz as <-. destruct (nl_mul_zero_def N HN u) as (p & Hp). exists p. split; [exact Hp|]. exact (zero_mul HN u n_zero Hu Hi (le_zero_zero HN) p Hp).
    - injection Hz as <-. destruct (nl_mul_one N HN u) as (p & Hp & E). eauto.
  Qed.

  (** if_else *)
  Lemma bmem (c : bset) b : bcontains c b = true <-> member c b. Proof. symmetry. apply bmember_iff. Qed.
  Lemma if_else_hull (c : bset) X Y : proper X -> proper Y ->
    exists Z, iif_else c X Y = Ret Z
      /\ ((exists b, member c b) -> is_hull (fun v => (member c true /\ el X v) \/ (member c false /\ el Y v)) Z)
      /\ ((forall b, ~ member c b) -> Z = ivl_default).
  Proof.
    intros HX HY. unfold iif_else, possibly, possibly_not.
    assert (A : exists r, (if bcontains c true then iassign ivl_default X else Ret ivl_default) = Ret r
      /\ holds (fun v => member c true /\ el X v) r /\ (~ member c true -> r = ivl_default)).
    { destruct (bcontains c true) eqn:E.
      - apply bmem in E. destruct (default_assign X HX) as (r & Hr & Hh). exists r. split; [exact Hr|]. split; [|tauto]. right. eapply is_hull_ext; [|exact Hh]. tauto.
      - exists ivl_default. split; [reflexivity|]. split; [|auto]. left. split; [reflexivity|]. intros v [H _]. apply bmem in H. congruence. }
    destruct A as (r & -> & H1 & D1). cbn [bind]. destruct (bcontains c false) eqn:E.
    - apply bmem in E. destruct (holds_assign _ _ _ _ H1 (is_hull_self HO Y HY)) as (Z & HZ & Hh). exists Z. split; [exact HZ|]. split; [intros _; eapply is_hull_ext; [|exact Hh]; cbn; tauto|].
      intros H. destruct (H _ E).
    - assert (E' : ~ member c false) by (intros H; apply bmem in H; congruence). exists r. split; [reflexivity|]. split.
      + intros (b & Hb). destruct b; [|contradiction]. destruct H1 as [[_ H1]|H1]; [destruct (H1 (lo X)); split; [auto|apply (el_lower HO X HX)]|].
        eapply is_hull_ext; [|exact H1]. cbn. tauto.
      + intros H. apply D1, H.
  Qed.
  Lemma if_else_certain (c : bset) X Y : proper X -> proper Y ->
    (member c true -> ~ member c false -> exists Z, iif_else c X Y = Ret Z /\ same Z X)
    /\ (member c false -> ~ member c true -> exists Z, iif_else c X Y = Ret Z /\ same Z Y).
  Proof.
    intros HX HY. destruct (if_else_hull c X Y HX HY) as (Z & HZ & Hh & _). split; intros H1 H2; exists Z; (split; [exact HZ|]).
    - eapply (is_hull_unique HO); [exact (Hh (ex_intro _ _ H1))|]. eapply is_hull_ext; [|exact (is_hull_self HO X HX)]. cbn. tauto.
    - eapply (is_hull_unique HO); [exact (Hh (ex_intro _ _ H1))|]. eapply is_hull_ext; [|exact (is_hull_self HO Y HY)]. cbn. tauto.
  Qed.

  (** histories *)
  Lemma irun_app X ops ops' : irun X (ops ++ ops') = X' <- irun X ops ;; irun X' ops'.
  Proof. revert X. induction ops as [|o ops IH]; intros X; [reflexivity|]. cbn. destruct (istep X o); cbn; auto. Qed.
  Lemma iresets_dec (o : @iop N) : iop_resets o \/ ~ iop_resets o.
  Proof. destruct o; cbn; auto. Qed.
  Lemma since_snoc (ops : list (@iop N)) o v :
    igiven_since_reset (ops ++ [o]) v <-> iop_gives o v \/ (~ iop_resets o /\ igiven_since_reset ops v).
  Proof.
    split.
    - intros (pre & p & post & E & Hg & Hf). destruct post as [|q post] using rev_ind.
      + apply app_inj_tail in E as [_ <-]. auto.
      + clear IHpost. change (pre ++ p :: post ++ [q]) with (pre ++ (p :: post) ++ [q]) in E. rewrite app_assoc in E. apply app_inj_tail in E as [E <-].
        apply Forall_app in Hf as [Hf Hq]. right. split; [now inversion Hq|]. exists pre, p, post. auto.
    - intros [H|[H (pre & p & post & E & Hg & Hf)]].
      + exists ops, o, []. auto.
      + exists pre, p, (post ++ [o]). rewrite E, <- app_assoc. split; [reflexivity|]. split; [exact Hg|]. apply Forall_app. auto.
  Qed.
  Lemma not_nan_ok v : ~ nan v <-> ok v.
  Proof. rewrite (nan_iff HN). destruct (ok_dec HN v) as [H|H]; [tauto|]. apply (nan_iff HN) in H. tauto. Qed.
  Lemma run_holds ops : Forall iop_legal ops -> exists Z, irun (@ivl_default N) ops = Ret Z /\ holds (igiven_since_reset ops) Z.
  Proof.
    induction ops as [|o ops IH] using rev_ind; intros Hl.
    - exists ivl_default. split; [reflexivity|]. left. split; [reflexivity|]. intros v (pre & p & post & E & _). destruct pre; discriminate.
    - apply Forall_app in Hl as [Hl Ho]. inversion Ho as [|? ? Ho' _]; subst. destruct (IH Hl) as (X & HX & Hh). rewrite irun_app, HX. cbn [bind].
      assert (Ext : forall Z, holds (fun v => iop_gives o v \/ (~ iop_resets o /\ igiven_since_reset ops v)) Z -> holds (igiven_since_reset (ops ++ [o])) Z).
      { intros Z. apply holds_ext. intros v. symmetry. apply since_snoc. }
      destruct o; cbn [istep irun bind iop_legal] in *.
      + exists ivl_default. split; [reflexivity|]. apply Ext. left. split; [reflexivity|]. cbn. tauto.
      + eexists. split; [reflexivity|]. apply Ext. right. apply not_nan_ok in Ho'. eapply is_hull_ext; [|exact (is_hull_self HO (ivl_of v) Ho')]. intros u. cbn. rewrite <- eq_el. tauto.
      + eexists. split; [reflexivity|]. apply Ext. right. eapply is_hull_ext; [|exact (is_hull_self HO Y Ho')]. intros u. cbn. tauto.
      + eexists. split; [reflexivity|]. apply Ext. right. apply not_nan_ok in Ho'. eapply is_hull_ext; [|exact (holds_assign_value _ _ _ Hh Ho')]. intros u. cbn. tauto.
      + destruct (holds_assign _ _ _ _ Hh (is_hull_self HO Y Ho')) as (Z & HZ & HhZ). rewrite HZ. cbn. exists Z. split; [reflexivity|]. apply Ext. right. eapply is_hull_ext; [|exact HhZ]. intros u. cbn. tauto.
  Qed.
  Lemma since_no_reset (ops : list (@iop N)) v : Forall (fun o => ~ iop_resets o) ops -> (igiven_since_reset ops v <-> exists o, In o ops /\ iop_gives o v).
  Proof.
    intros Hf. split.
    - intros (pre & p & post & -> & Hg & _). exists p. split; [|exact Hg]. apply in_elt.
    - intros (o & Ho & Hg). apply in_split in Ho as (pre & post & ->). exists pre, o, post. split; [reflexivity|]. split; [exact Hg|].
      apply Forall_app in Hf as [_ Hf]. now inversion Hf.
  Qed.
  Lemma run_permute ops ops' : Permutation ops ops' -> Forall iop_legal ops -> Forall (fun o => ~ iop_resets o) ops ->
    exists Z Z', irun (@ivl_default N) ops = Ret Z /\ irun (@ivl_default N) ops' = Ret Z' /\ same Z Z'.
  Proof.
    intros HP Hl Hf. destruct (run_holds ops Hl) as (Z & HZ & Hh). destruct (run_holds ops' (Permutation_Forall HP Hl)) as (Z' & HZ' & Hh').
    exists Z, Z'. split; [exact HZ|]. split; [exact HZ'|].
    assert (E : forall v, igiven_since_reset ops v <-> igiven_since_reset ops' v).
    { intros v. rewrite (since_no_reset ops v Hf), (since_no_reset ops' v (Permutation_Forall HP Hf)).
      split; intros (o & Ho & Hg); exists o; (split; [|exact Hg]); [apply (Permutation_in _ HP)|apply (Permutation_in _ (Permutation_sym HP))]; exact Ho. }
    destruct Hh as [[-> Hn]|Hh], Hh' as [[-> Hn']|Hh'].
    - intros v. reflexivity.
    - exfalso. destruct Hh' as (_ & (v & Hv & _) & _). apply (Hn v), E, Hv.
    - exfalso. destruct Hh as (_ & (v & Hv & _) & _). apply (Hn' v), E, Hv.
    - eapply (is_hull_unique HO); [exact Hh|]. eapply is_hull_ext; [|exact Hh']. intros v. symmetry. apply E.
  Qed.
End Arith.
