(** Multiplication, division, square, cube, abs. *)
From Coq Require Import Bool List.
From Verif Require Import Outcome SetModel Spec SetProofs SetProofs2 Num NumLaws IntervalModel IvlSpec IvlProofs ArithProofs.
Import ListNotations.

Section Arith.
  Context {N : num} (HN : num_laws N).
  Let HO := nl_ord N HN.
  Implicit Types (X Y Z : ivl N) (u v w : N) (x y : arg N).

  Lemma ael_between x u1 u u2 : ael x u1 -> ael x u2 -> o_le u1 u = true -> o_le u u2 = true -> ael x u.
  Proof. intros [A1 A2] [B1 B2] H1 H2. split; ord HO. Qed.
  Lemma sign_cases u : ok u -> o_le n_zero u = true \/ o_le u n_zero = true.
  Proof. intros H. destruct (ol_total _ HO n_zero u (ok_zero HN) H); auto. Qed.

  Lemma mul_between u1 u u2 c p1 p2 : ok c -> o_le u1 u = true -> o_le u u2 = true -> n_mul u1 c = Ret p1 -> n_mul u2 c = Ret p2 -> ok p1 -> ok p2 ->
    (forall p, n_mul u c = Ret p -> ok p) -> exists p, n_mul u c = Ret p /\ between p p1 p2.
  Proof.
    intros Hc H1 H2 P1 P2 O1 O2 Hok. destruct (nl_mul_def N HN _ _ _ _ _ _ H1 H2 Hc P1 P2) as (p & Hp). exists p. split; [exact Hp|].
    assert (Op := Hok p Hp). destruct (sign_cases c Hc) as [Hs|Hs]; [left|right]; split.
    - exact (nl_mul_mono N HN _ _ _ _ _ H1 Hs P1 Hp O1 Op).
    - exact (nl_mul_mono N HN _ _ _ _ _ H2 Hs Hp P2 Op O2).
    - exact (nl_mul_anti N HN _ _ _ _ _ H2 Hs Hp P2 Op O2).
    - exact (nl_mul_anti N HN _ _ _ _ _ H1 Hs P1 Hp O1 Op).
  Qed.
  Lemma mul_bimonotone x y : ~ nan_pair n_mul x y -> bimonotone n_mul x y.
  Proof.
    intros Hn. split.
    - intros u1 u u2 c p1 p2 H1 H2 Hc L1 L2 P1 P2. assert (Hu := ael_between _ _ _ _ H1 H2 L1 L2).
      apply (mul_between u1 u u2); auto.
      + exact (ael_ok HO _ _ Hc).
      + exact (not_nan_pair HN _ _ _ _ _ _ Hn H1 Hc P1).
      + exact (not_nan_pair HN _ _ _ _ _ _ Hn H2 Hc P2).
      + intros p Hp. exact (not_nan_pair HN _ _ _ _ _ _ Hn Hu Hc Hp).
    - intros c u1 u u2 p1 p2 Hc H1 H2 L1 L2 P1 P2. assert (Hu := ael_between _ _ _ _ H1 H2 L1 L2).
      assert (O1 := not_nan_pair HN _ _ _ _ _ _ Hn Hc H1 P1). assert (O2 := not_nan_pair HN _ _ _ _ _ _ Hn Hc H2 P2).
      rewrite (nl_mul_comm N HN) in P1, P2. rewrite (nl_mul_comm N HN c u). apply (mul_between u1 u u2); auto.
      + exact (ael_ok HO _ _ Hc).
      + intros p Hp. rewrite (nl_mul_comm N HN) in Hp. exact (not_nan_pair HN _ _ _ _ _ _ Hn Hc Hu Hp).
  Qed.
  Lemma mul_op_ok dbg x y : aproper x -> aproper y -> op_ok n_mul (imul dbg x y) x y.
  Proof.
    intros Hx Hy. unfold imul. rewrite (pre_ok HN dbg x y Hx Hy). cbn [bind].
    match goal with |- context [if ?c then _ else _] => destruct c eqn:E end.
    - assert (Hf : n_float N = true) by (destruct (n_float N); [reflexivity|discriminate]).
      apply (mul_nan_iff HN x y Hx Hy) in E. apply (op_ok_nan HN); auto.
      intros u v. destruct (nl_float_total N HN Hf u v) as (_ & _ & _ & _ & H & _). exact H.
    - assert (Hn : ~ nan_pair n_mul x y).
      { intros H. apply (mul_nan_iff HN x y Hx Hy) in H. rewrite H in E. discriminate. }
      exact (corners_ok HN n_mul x y Hx Hy (mul_bimonotone x y Hn) Hn).
  Qed.

  (** ** division *)
  (** The divisor has one sign. *)
  Definition zero_free y : Prop := o_lt n_zero (alower y) = true \/ o_lt (aupper y) n_zero = true.
  Lemma zero_free_iff y : aproper y -> zero_free y <-> ~ exists v, ael y v /\ is_zero v.
  Proof.
    intros Hy. unfold zero_free. rewrite <- (azero_iff HN y Hy). unfold aproper in Hy. pose proof (ok_zero HN) as Hz.
    destruct (o_le (alower y) n_zero) eqn:E1; [|split; [intros _; discriminate|intros _; left; ord HO]]. cbn.
    destruct (o_le n_zero (aupper y)) eqn:E2; [|split; [intros _; discriminate|intros _; right; ord HO]]. cbn.
    split; [|tauto]. intros [H|H]; ord HO.
  Qed.
  Lemma zero_free_el y v : zero_free y -> ael y v -> o_lt n_zero v = true \/ o_lt v n_zero = true.
  Proof. intros [H|H] [H1 H2]; [left|right]; ord HO. Qed.

  Lemma div_bimonotone x y : zero_free y -> ~ nan_pair n_div x y -> bimonotone n_div x y.
  Proof.
    intros Hz Hn. split.
    - intros u1 u u2 c p1 p2 H1 H2 Hc L1 L2 P1 P2. assert (Hu := ael_between _ _ _ _ H1 H2 L1 L2).
      assert (O1 := not_nan_pair HN _ _ _ _ _ _ Hn H1 Hc P1). assert (O2 := not_nan_pair HN _ _ _ _ _ _ Hn H2 Hc P2).
      assert (Sc' := zero_free_el y c Hz Hc).
      destruct (nl_div_def1 N HN _ _ _ _ _ _ L1 L2 Sc' P1 P2) as (p & Hp). exists p. split; [exact Hp|].
      assert (Op := not_nan_pair HN _ _ _ _ _ _ Hn Hu Hc Hp). destruct Sc' as [Hs|Hs]; [left|right]; split.
      + exact (nl_div_mono N HN _ _ _ _ _ L1 Hs P1 Hp O1 Op).
      + exact (nl_div_mono N HN _ _ _ _ _ L2 Hs Hp P2 Op O2).
      + exact (nl_div_anti N HN _ _ _ _ _ L2 Hs Hp P2 Op O2).
      + exact (nl_div_anti N HN _ _ _ _ _ L1 Hs P1 Hp O1 Op).
    - intros c u1 u u2 p1 p2 Hc H1 H2 L1 L2 P1 P2. assert (Hu := ael_between _ _ _ _ H1 H2 L1 L2).
      assert (O1 := not_nan_pair HN _ _ _ _ _ _ Hn Hc H1 P1). assert (O2 := not_nan_pair HN _ _ _ _ _ _ Hn Hc H2 P2).
      assert (Hs : o_lt n_zero u1 = true \/ o_lt u2 n_zero = true).
      { destruct Hz as [Hz|Hz]; [left|right]; destruct H1, H2; ord HO. }
      assert (Hs1 : o_lt n_zero u1 = true \/ o_lt u n_zero = true) by (destruct Hs; [left|right]; ord HO).
      assert (Hs2 : o_lt n_zero u = true \/ o_lt u2 n_zero = true) by (destruct Hs; [left|right]; ord HO).
      destruct (nl_div_def2 N HN _ _ _ _ _ _ (ael_ok HO _ _ Hc) L1 L2 Hs P1 P2) as (p & Hp). exists p. split; [exact Hp|].
      assert (Op := not_nan_pair HN _ _ _ _ _ _ Hn Hc Hu Hp). destruct (sign_cases c (ael_ok HO _ _ Hc)) as [Sc'|Sc']; [right|left]; split.
      + exact (nl_div_pos N HN _ _ _ _ _ Sc' L2 Hs2 Hp P2 Op O2).
      + exact (nl_div_pos N HN _ _ _ _ _ Sc' L1 Hs1 P1 Hp O1 Op).
      + exact (nl_div_neg N HN _ _ _ _ _ Sc' L1 Hs1 P1 Hp O1 Op).
      + exact (nl_div_neg N HN _ _ _ _ _ Sc' L2 Hs2 Hp P2 Op O2).
  Qed.

  Lemma div_nan_iff x y : aproper x -> aproper y -> n_float N = true ->
    (nan_pair n_div x y <-> (is_ninf (alower x) || is_pinf (aupper x)) && (is_ninf (alower y) || is_pinf (aupper y)) = true
      \/ (o_le (alower x) n_zero && o_le n_zero (aupper x)) && (o_le (alower y) n_zero && o_le n_zero (aupper y)) = true).
  Proof.
    intros Hx Hy Hf. rewrite (andb_true_iff (_ || _)), (andb_true_iff (_ && _)).
    rewrite (ainfinite_iff HN x Hx), (ainfinite_iff HN y Hy), (azero_iff HN x Hx), (azero_iff HN y Hy). split.
    - intros (u & v & s & Hu & Hv & Hs & Hn). rewrite (nan_iff HN) in Hn.
      rewrite (nl_div_nan N HN u v s (ael_ok HO _ _ Hu) (ael_ok HO _ _ Hv) Hs) in Hn.
      destruct (is_ninf u || is_pinf u) eqn:E1, (is_ninf v || is_pinf v) eqn:E2.
      + left. split; [exists u|exists v]; (split; [assumption|now apply (infinite_b (N := N))]).
      + right. assert (~ infinite v) by (rewrite <- infinite_b, E2; discriminate). unfold is_zero in *. destruct (o_eq u n_zero) eqn:E3, (o_eq v n_zero) eqn:E4; try (exfalso; apply Hn; intuition discriminate). split; eauto.
      + right. assert (~ infinite u) by (rewrite <- infinite_b, E1; discriminate). unfold is_zero in *. destruct (o_eq u n_zero) eqn:E3, (o_eq v n_zero) eqn:E4; try (exfalso; apply Hn; intuition discriminate). split; eauto.
      + right. assert (~ infinite u) by (rewrite <- infinite_b, E1; discriminate). unfold is_zero in *. destruct (o_eq u n_zero) eqn:E3, (o_eq v n_zero) eqn:E4; try (exfalso; apply Hn; intuition discriminate). split; eauto.
    - intros [[(u & Hu & Iu) (v & Hv & Iv)]|[(u & Hu & Zu) (v & Hv & Zv)]];
        destruct (nl_float_total N HN Hf u v) as (_ & _ & _ & _ & _ & (s & Hs)); exists u, v, s; (split; [exact Hu|]); (split; [exact Hv|]); (split; [exact Hs|]);
        apply (nan_iff HN); rewrite (nl_div_nan N HN u v s (ael_ok HO _ _ Hu) (ael_ok HO _ _ Hv) Hs); tauto.
  Qed.

  (** The code after the special cases. *)
  Definition div_corners x y : outcome (ivl N) :=
    match x, y with
    | Sc a, _ => v1 <- n_div a (alower y) ;; v2 <- n_div a (aupper y) ;; hull2 v1 v2
    | Iv X, Sc b => v1 <- n_div (lo X) b ;; v2 <- n_div (hi X) b ;; hull2 v1 v2
    | Iv X, Iv Y =>
        v1 <- n_div (lo X) (lo Y) ;; v2 <- n_div (lo X) (hi Y) ;;
        v3 <- n_div (hi X) (lo Y) ;; v4 <- n_div (hi X) (hi Y) ;; hull4 v1 v2 v3 v4
    end.
  Lemma straddle_iff y : aproper y -> o_lt (alower y) n_zero && o_lt n_zero (aupper y) = true -> exists v, ael y v /\ is_zero v.
  Proof. intros Hy H. apply (azero_iff HN y Hy). apply andb_true_iff in H as [H1 H2]. apply andb_true_iff. split; ord HO. Qed.

  (** What [/] computes for floating-point operands. *)
  Lemma idiv_float dbg x y : aproper x -> aproper y -> n_float N = true ->
    (nan_pair n_div x y -> idiv dbg x y = nan_interval) /\
    (~ nan_pair n_div x y -> o_lt (alower y) n_zero && o_lt n_zero (aupper y) = true -> idiv dbg x y = inf_interval) /\
    (~ nan_pair n_div x y -> o_lt (alower y) n_zero && o_lt n_zero (aupper y) = false -> idiv dbg x y = div_corners x y).
  Proof.
    intros Hx Hy Hf. pose proof (div_nan_iff x y Hx Hy Hf) as Hiff. unfold idiv. rewrite (pre_ok HN dbg x y Hx Hy), Hf. cbn [bind andb].
    destruct x as [a|X]; [|destruct y as [b|Y]]; cbn [alower aupper] in *.
    - assert (Ea : o_le a n_zero && o_le n_zero a = o_eq a n_zero) by (rewrite (ol_eq _ HO); reflexivity).
      rewrite Ea in Hiff. rewrite <- (andb_assoc (o_eq a n_zero)).
      destruct ((is_ninf a || is_pinf a) && (is_ninf (alower y) || is_pinf (aupper y))) eqn:E1.
      { split; [reflexivity|]. split; intros Hn; exfalso; apply Hn, Hiff; auto. }
      destruct (o_eq a n_zero && (o_le (alower y) n_zero && o_le n_zero (aupper y))) eqn:E2.
      { split; [reflexivity|]. split; intros Hn; exfalso; apply Hn, Hiff; auto. }
      split; [intros H; apply Hiff in H as [H|H]; discriminate|]. rewrite <- andb_assoc.
      destruct (o_lt (alower y) n_zero && o_lt n_zero (aupper y)) eqn:E3.
      + split; [|discriminate]. intros _ _. destruct (o_eq a n_zero) eqn:E4; [|reflexivity]. exfalso.
        apply andb_true_iff in E3 as [F1 F2]. cbn in E2. ord HO.
      + split; [discriminate|]. intros _ _. rewrite andb_false_r. reflexivity.
    - assert (Eb : o_le b n_zero && o_le n_zero b = o_eq b n_zero) by (rewrite (ol_eq _ HO); reflexivity).
      rewrite Eb in Hiff.
      destruct ((is_ninf (lo X) || is_pinf (hi X)) && (is_ninf b || is_pinf b)) eqn:E1.
      { split; [reflexivity|]. split; intros Hn; exfalso; apply Hn, Hiff; auto. }
      destruct (o_le (lo X) n_zero && o_le n_zero (hi X) && o_eq b n_zero) eqn:E2.
      { split; [reflexivity|]. split; intros Hn; exfalso; apply Hn, Hiff; auto. }
      split; [intros H; apply Hiff in H as [H|H]; discriminate|].
      assert (E3 : o_lt b n_zero && o_lt n_zero b = false) by (pose proof (ok_zero HN); unfold aproper in Hy; cbn in Hy; ord HO).
      rewrite E3. split; [discriminate|]. reflexivity.
    - destruct ((is_ninf (lo X) || is_pinf (hi X)) && (is_ninf (lo Y) || is_pinf (hi Y))) eqn:E1.
      { split; [reflexivity|]. split; intros Hn; exfalso; apply Hn, Hiff; auto. }
      rewrite <- (andb_assoc (o_le (lo X) n_zero && o_le n_zero (hi X))).
      destruct (o_le (lo X) n_zero && o_le n_zero (hi X) && (o_le (lo Y) n_zero && o_le n_zero (hi Y))) eqn:E2.
      { split; [reflexivity|]. split; intros Hn; exfalso; apply Hn, Hiff; auto. }
      split; [intros H; apply Hiff in H as [H|H]; discriminate|].
      rewrite <- (andb_assoc (o_lt n_zero (lo X) || o_lt (hi X) n_zero)).
      destruct (o_lt (lo Y) n_zero && o_lt n_zero (hi Y)) eqn:E3.
      + split; [|discriminate]. intros _ _. rewrite andb_true_r.
        destruct (o_lt n_zero (lo X) || o_lt (hi X) n_zero) eqn:E4; [reflexivity|]. exfalso.
        apply andb_true_iff in E3 as [F1 F2]. apply orb_false_iff in E4 as [F3 F4].
        unfold aproper in Hx, Hy. cbn in Hx, Hy. apply andb_false_iff in E2 as [E2|E2]; apply andb_false_iff in E2 as [E2|E2]; pose proof (ok_zero HN); ord HO.
      + split; [discriminate|]. intros _ _. rewrite andb_false_r. reflexivity.
  Qed.

  (** Division by a divisor without zero: exact. *)
  Lemma div_zero_free dbg x y : aproper x -> aproper y -> zero_free y -> op_ok n_div (idiv dbg x y) x y.
  Proof.
    intros Hx Hy Hz.
    assert (Hstr : o_lt (alower y) n_zero && o_lt n_zero (aupper y) = false).
    { destruct (o_lt (alower y) n_zero && o_lt n_zero (aupper y)) eqn:E; [|reflexivity]. apply (straddle_iff y Hy) in E. now apply (zero_free_iff y Hy) in Hz. }
    destruct (n_float N) eqn:Hf.
    - destruct (idiv_float dbg x y Hx Hy Hf) as (H1 & _ & H3).
      assert (Hdec : nan_pair n_div x y \/ ~ nan_pair n_div x y).
      { rewrite (div_nan_iff x y Hx Hy Hf), <- orb_true_iff. match goal with |- ?b = true \/ _ => destruct b; [left; reflexivity|right; discriminate] end. }
      destruct Hdec as [Hp|Hp].
      + rewrite (H1 Hp). apply (op_ok_nan HN); auto. intros u v. destruct (nl_float_total N HN Hf u v) as (_ & _ & _ & _ & _ & H). exact H.
      + rewrite (H3 Hp Hstr). exact (corners_ok HN n_div x y Hx Hy (div_bimonotone x y Hz Hp) Hp).
    - assert (Hp : ~ nan_pair n_div x y).
      { intros (u & v & s & _ & _ & _ & Hn). apply (nan_iff HN) in Hn. exact (Hn (nl_int_ok N HN Hf s)). }
      replace (idiv dbg x y) with (div_corners x y); [exact (corners_ok HN n_div x y Hx Hy (div_bimonotone x y Hz Hp) Hp)|].
      assert (Hz' : o_le (alower y) n_zero && o_le n_zero (aupper y) = false).
      { destruct (o_le (alower y) n_zero && o_le n_zero (aupper y)) eqn:E; [|reflexivity]. apply (azero_iff HN y Hy) in E. now apply (zero_free_iff y Hy) in Hz. }
      unfold idiv. rewrite (pre_ok HN dbg x y Hx Hy), Hf. cbn [bind andb].
      destruct x as [a|X]; [|destruct y as [b|Y]]; cbn [alower aupper] in *; rewrite ?Hz'; reflexivity.
  Qed.
  Lemma div_int_trap dbg x Y : aproper x -> proper Y -> n_float N = false -> (idiv dbg x (Iv Y) = Trap <-> exists v, el Y v /\ is_zero v).
  Proof.
    intros Hx Hy Hf. split.
    - intros H. destruct (o_le (lo Y) n_zero && o_le n_zero (hi Y)) eqn:E; [now apply (azero_iff HN (Iv Y) Hy)|]. exfalso.
      unfold idiv in H. rewrite (pre_ok HN dbg x (Iv Y) Hx Hy), Hf in H. cbn [bind alower aupper] in H.
      assert (Hub : forall a b, n_div a b = UB \/ exists z, n_div a b = Ret z) by (intros a b; apply (nl_ret_or_ub N HN a b)).
      assert (Hmk : forall p q : N, mk p q <> Trap) by (intros p q; unfold mk, expects; destruct (negb (o_lt q p)); discriminate).
      destruct x as [a|X]; rewrite E in H.
      + destruct (Hub a (lo Y)) as [H1|(p1 & H1)]; [rewrite H1 in H; discriminate|rewrite H1 in H; cbn [bind] in H].
        destruct (Hub a (hi Y)) as [H2|(p2 & H2)]; [rewrite H2 in H; discriminate|rewrite H2 in H; cbn [bind] in H]. now apply Hmk in H.
      + destruct (Hub (lo X) (lo Y)) as [H1|(p1 & H1)]; [rewrite H1 in H; discriminate|rewrite H1 in H; cbn [bind] in H].
        destruct (Hub (lo X) (hi Y)) as [H2|(p2 & H2)]; [rewrite H2 in H; discriminate|rewrite H2 in H; cbn [bind] in H].
        destruct (Hub (hi X) (lo Y)) as [H3|(p3 & H3)]; [rewrite H3 in H; discriminate|rewrite H3 in H; cbn [bind] in H].
        destruct (Hub (hi X) (hi Y)) as [H4|(p4 & H4)]; [rewrite H4 in H; discriminate|rewrite H4 in H; cbn [bind] in H]. now apply Hmk in H.
    - intros H. apply (azero_iff HN (Iv Y) Hy) in H. cbn [alower aupper] in H.
      unfold idiv. rewrite (pre_ok HN dbg x (Iv Y) Hx Hy), Hf. cbn [bind alower aupper]. destruct x; rewrite H; reflexivity.
  Qed.
  Lemma div_int_scalar_zero dbg X b : proper X -> is_zero b -> n_float N = false -> idiv dbg (Iv X) (Sc b) = UB.
  Proof.
    intros HX Hb Hf. unfold idiv.
    assert (Hyp : aproper (Sc b)) by (unfold aproper, is_zero in *; cbn; ord HO).
    rewrite (pre_ok HN dbg (Iv X) (Sc b) HX Hyp), Hf. cbn [bind andb]. rewrite (nl_div_zero_int N HN Hf _ _ Hb). reflexivity.
  Qed.

  (** NaN is reported exactly. *)
  Lemma div_nan dbg x y : aproper x -> aproper y -> n_float N = true ->
    exists Z, idiv dbg x y = Ret Z /\ (nan_pair n_div x y -> nan_ivl Z) /\ (~ nan_pair n_div x y -> proper Z).
  Proof.
    intros Hx Hy Hf. destruct (idiv_float dbg x y Hx Hy Hf) as (H1 & H2 & H3).
    assert (Hdec : nan_pair n_div x y \/ ~ nan_pair n_div x y).
    { rewrite (div_nan_iff x y Hx Hy Hf), <- orb_true_iff. match goal with |- ?b = true \/ _ => destruct b; [left; reflexivity|right; discriminate] end. }
    destruct Hdec as [Hp|Hp].
    - rewrite (H1 Hp). destruct (nan_interval_nan HN Hf) as (Z & HZ & HnZ). exists Z. tauto.
    - destruct (o_lt (alower y) n_zero && o_lt n_zero (aupper y)) eqn:E.
      + rewrite (H2 Hp eq_refl), (inf_interval_ret HN). eexists. split; [reflexivity|]. split; [tauto|]. intros _. apply (bot_le_top HN).
      + rewrite (H3 Hp eq_refl). clear H1 H2 H3.
        assert (Hd : forall u v, ael x u -> ael y v -> exists s, n_div u v = Ret s /\ ok s).
        { intros u v Hu Hv. destruct (nl_float_total N HN Hf u v) as (_ & _ & _ & _ & _ & (s & Hs)). exists s. split; [exact Hs|]. exact (not_nan_pair HN _ _ _ _ _ _ Hp Hu Hv Hs). }
        pose proof (ael_lower HO x Hx) as Lx. pose proof (ael_upper HO x Hx) as Ux. pose proof (ael_lower HO y Hy) as Ly. pose proof (ael_upper HO y Hy) as Uy.
        destruct (Hd _ _ Lx Ly) as (p1 & P1 & O1), (Hd _ _ Lx Uy) as (p2 & P2 & O2), (Hd _ _ Ux Ly) as (p3 & P3 & O3), (Hd _ _ Ux Uy) as (p4 & P4 & O4).
        assert (Hrefl : forall z : N, ok z -> between z z z) by (intros z Hz; left; split; exact Hz).
        unfold div_corners. destruct x as [a|X]; [|destruct y as [b|Y]]; cbn [alower aupper] in *.
        * rewrite P1, P2. cbn [bind]. destruct (hull2_spec HN p1 p2 O1 O2) as (Z & -> & _ & _ & Hel). exists Z. split; [reflexivity|]. split; [tauto|]. intros _.
          apply (proper_iff HO). destruct (ol_total _ HO p1 p2 O1 O2); exists p1; apply Hel; [left|right]; auto.
        * rewrite P1, P3. cbn [bind]. destruct (hull2_spec HN p1 p3 O1 O3) as (Z & -> & _ & _ & Hel). exists Z. split; [reflexivity|]. split; [tauto|]. intros _.
          apply (proper_iff HO). destruct (ol_total _ HO p1 p3 O1 O3); exists p1; apply Hel; [left|right]; auto.
        * rewrite P1, P2, P3, P4. cbn [bind]. destruct (hull4_spec HN p1 p2 p3 p4 O1 O2 O3 O4) as (Z & -> & _ & _ & Hel). exists Z. split; [reflexivity|]. split; [tauto|]. intros _.
          apply (proper_iff HO). exists p1. apply (Hel p1 p1 p3).
          -- destruct (ol_total _ HO p1 p2 O1 O2); [left|right]; auto.
          -- destruct (ol_total _ HO p3 p4 O3 O4); [left|right]; auto.
          -- destruct (ol_total _ HO p1 p3 O1 O3); [left|right]; auto.
  Qed.

  (** Enclosure when zero end points of the divisor have the sign that fits. *)
  Lemma div_encloses dbg x y : aproper x -> aproper y -> n_float N = true -> ~ nan_pair n_div x y -> zeros_fit y ->
    exists Z, idiv dbg x y = Ret Z /\ forall u v q, ael x u -> ael y v -> ~ is_zero v -> n_div u v = Ret q -> el Z q.
  Proof.
    intros Hx Hy Hf Hp [Hfit1 Hfit2]. destruct (idiv_float dbg x y Hx Hy Hf) as (_ & H2 & H3).
    assert (Hd : forall u v, ael x u -> ael y v -> exists s, n_div u v = Ret s /\ ok s).
    { intros u v Hu Hv. destruct (nl_float_total N HN Hf u v) as (_ & _ & _ & _ & _ & (s & Hs)). exists s. split; [exact Hs|]. exact (not_nan_pair HN _ _ _ _ _ _ Hp Hu Hv Hs). }
    destruct (o_lt (alower y) n_zero && o_lt n_zero (aupper y)) eqn:E.
    { rewrite (H2 Hp eq_refl), (inf_interval_ret HN). eexists. split; [reflexivity|]. intros u v q Hu Hv _ Hq. destruct (Hd u v Hu Hv) as (q' & Hq' & Oq).
      rewrite Hq in Hq'. injection Hq' as <-. now apply (el_inf_interval HN). }
    clear H2 H3.
    destruct (div_nan dbg x y Hx Hy Hf) as (Z & HZ & _ & HZp). specialize (HZp Hp). exists Z. split; [exact HZ|].
    intros u v q Hu Hv Hv0 Hq.
    destruct (o_le (alower y) n_zero && o_le n_zero (aupper y)) eqn:E0.
    2:{ (* zero free *)
      assert (Hz : zero_free y). { apply (zero_free_iff y Hy). rewrite <- (azero_iff HN y Hy), E0. discriminate. }
      destruct (proj2 (div_zero_free dbg x y Hx Hy Hz) Z HZ) as (_ & _ & Hh). destruct (Hh Hp) as [Hh' _]. apply Hh'. exists u, v. auto. }
    (* an end point is zero; then X is zero-free *)
    apply andb_true_iff in E0 as [Z1 Z2].
    assert (Hx0 : zero_free x).
    { apply (zero_free_iff x Hx). intros Hex. apply Hp. apply (div_nan_iff x y Hx Hy Hf). right. apply andb_true_iff. split; [now apply (azero_iff HN x Hx)|]. rewrite Z1, Z2. reflexivity. }
    pose proof (ael_lower HO x Hx) as Lx. pose proof (ael_upper HO x Hx) as Ux. pose proof (ael_lower HO y Hy) as Ly. pose proof (ael_upper HO y Hy) as Uy.
    destruct (Hd _ _ Lx Ly) as (p1 & P1 & O1), (Hd _ _ Lx Uy) as (p2 & P2 & O2), (Hd _ _ Ux Ly) as (p3 & P3 & O3), (Hd _ _ Ux Uy) as (p4 & P4 & O4).
    destruct (idiv_float dbg x y Hx Hy Hf) as (_ & _ & H3). rewrite (H3 Hp E) in HZ. clear H3.
    assert (Oq : ok q). { destruct (Hd u v Hu Hv) as (q' & Hq' & Oq). rewrite Hq in Hq'. injection Hq' as <-. exact Oq. }
    (* all four corner values are in Z *)
    assert (Hcor : el Z p1 /\ el Z p2 /\ el Z p3 /\ el Z p4).
    { clear Hd Hfit1 Hfit2. unfold div_corners in HZ. destruct x as [a|X]; [|destruct y as [b|Y]]; cbn [alower aupper] in *.
      - rewrite P1, P2 in HZ. cbn [bind] in HZ. destruct (hull2_spec HN p1 p2 O1 O2) as (Z' & HZ' & _ & _ & Hel). rewrite HZ' in HZ. injection HZ as <-.
        assert (p3 = p1) by congruence. assert (p4 = p2) by congruence. subst p3 p4.
        assert (el Z' p1 /\ el Z' p2) by (destruct (ol_total _ HO p1 p2 O1 O2); split; apply Hel; unfold between; tauto). tauto.
      - rewrite P1, P3 in HZ. cbn [bind] in HZ. destruct (hull2_spec HN p1 p3 O1 O3) as (Z' & HZ' & _ & _ & Hel). rewrite HZ' in HZ. injection HZ as <-.
        assert (p2 = p1) by congruence. assert (p4 = p3) by congruence. subst p2 p4.
        assert (el Z' p1 /\ el Z' p3) by (destruct (ol_total _ HO p1 p3 O1 O3); split; apply Hel; unfold between; tauto). tauto.
      - rewrite P1, P2, P3, P4 in HZ. cbn [bind] in HZ. destruct (hull4_spec HN p1 p2 p3 p4 O1 O2 O3 O4) as (Z' & HZ' & _ & _ & Hel). rewrite HZ' in HZ. injection HZ as <-.
        assert (B12 : between p1 p1 p2 /\ between p2 p1 p2) by (unfold between; destruct (ol_total _ HO p1 p2 O1 O2); tauto).
        assert (B34 : between p3 p3 p4 /\ between p4 p3 p4) by (unfold between; destruct (ol_total _ HO p3 p4 O3 O4); tauto).
        assert (Hself : forall c d, ok c -> ok d -> between c c d /\ between d c d) by (intros c d Oc Od; unfold between, ok in *; destruct (ol_total _ HO c d Oc Od); tauto).
        split; [|split; [|split]].
        + apply (Hel p1 p1 p3); try tauto. now apply Hself.
        + apply (Hel p2 p2 p3); try tauto. now apply Hself.
        + apply (Hel p3 p1 p3); try tauto. now apply Hself.
        + apply (Hel p4 p1 p4); try tauto. now apply Hself. }
    destruct Hcor as ([C1 C1'] & [C2 C2'] & [C3 C3'] & [C4 C4']). clear HZ HZp.
    pose proof (ok_zero HN) as Oz.
    assert (Hy2 : o_lt n_zero (aupper y) = true \/ o_lt (alower y) n_zero = true).
    { destruct (o_lt n_zero (aupper y)) eqn:F1; [tauto|]. destruct (o_lt (alower y) n_zero) eqn:F2; [tauto|]. exfalso. apply Hv0. unfold is_zero. destruct Hv. ord HO. }
    pose proof Hv as [V1 V2]. pose proof Hu as [U1 U2].
    destruct Hy2 as [Hy2|Hy2].
    - (* lower end is zero; it must be a positive zero *)
      assert (Hl0 : is_zero (alower y)) by (unfold is_zero; rewrite Hy2, andb_true_r in E; ord HO).
      assert (Hpz : pos_zero (alower y)).
      { destruct (nl_div_zero_float N HN Hf _ Hl0) as [|Hnz]; [assumption|]. apply Hfit1 in Hnz. exfalso. unfold is_zero in Hnz. ord HO. }
      assert (Hvp : o_lt n_zero v = true) by (unfold is_zero in *; destruct (o_lt n_zero v) eqn:F; [reflexivity|]; exfalso; apply Hv0; ord HO).
      destruct (nl_div_pos_zero N HN Hf (alower x) _ Hpz) as [Q1 Q2].
      destruct Hx0 as [Hx0|Hx0].
      + assert (p1 = n_top) by (assert (T := Q1 Hx0); congruence). subst p1.
        split; [|apply (ol_trans _ HO _ _ _ (nl_top N HN q Oq) C1')].
        (* q = u/v >= u/upper >= lower/upper = p2 *)
        destruct (Hd u _ Hu Uy) as (r & Hr & Or).
        assert (R1 : o_le r q = true). { apply (nl_div_pos N HN u v (aupper y) q r); auto; ord HO. }
        assert (R2 : o_le p2 r = true). { apply (nl_div_mono N HN (alower x) u (aupper y) p2 r); auto. }
        clear - HO R1 R2 C2. ord HO.
      + assert (Hxl : o_lt (alower x) n_zero = true) by (unfold aproper in Hx; ord HO).
        assert (p1 = n_bot) by (assert (T := Q2 Hxl); congruence). subst p1.
        split; [apply (ol_trans _ HO _ _ _ C1 (nl_bot N HN q Oq))|].
        destruct (Hd u _ Hu Uy) as (r & Hr & Or).
        assert (R1 : o_le q r = true). { apply (nl_div_neg N HN u v (aupper y) q r); auto; ord HO. }
        assert (R2 : o_le r p4 = true). { apply (nl_div_mono N HN u (aupper x) (aupper y) r p4); auto. }
        clear - HO R1 R2 C4'. ord HO.
    - assert (Hu0 : is_zero (aupper y)) by (unfold is_zero; rewrite Hy2 in E; cbn in E; ord HO).
      assert (Hnz : neg_zero (aupper y)).
      { destruct (nl_div_zero_float N HN Hf _ Hu0) as [Hpz|]; [|assumption]. apply Hfit2 in Hpz. exfalso. unfold is_zero in Hpz. ord HO. }
      assert (Hvn : o_lt v n_zero = true) by (unfold is_zero in *; destruct (o_lt v n_zero) eqn:F; [reflexivity|]; exfalso; apply Hv0; ord HO).
      destruct (nl_div_neg_zero N HN Hf (aupper x) _ Hnz) as [Q1 Q2].
      destruct Hx0 as [Hx0|Hx0].
      + assert (Hxu : o_lt n_zero (aupper x) = true) by (unfold aproper in Hx; ord HO).
        assert (p4 = n_bot) by (assert (T := Q1 Hxu); congruence). subst p4.
        split; [apply (ol_trans _ HO _ _ _ C4 (nl_bot N HN q Oq))|].
        (* q = u/v <= u/lower <= lower x / lower *)
        destruct (Hd u _ Hu Ly) as (r & Hr & Or).
        assert (R1 : o_le q r = true). { apply (nl_div_pos N HN u (alower y) v r q); auto; ord HO. }
        assert (R2 : o_le r p1 = true). { apply (nl_div_anti N HN (alower x) u (alower y) p1 r); auto. }
        clear - HO R1 R2 C1'. ord HO.
      + assert (p4 = n_top) by (assert (T := Q2 Hx0); congruence). subst p4.
        split; [|apply (ol_trans _ HO _ _ _ (nl_top N HN q Oq) C4')].
        destruct (Hd u _ Hu Ly) as (r & Hr & Or).
        assert (R1 : o_le r q = true). { apply (nl_div_neg N HN u (alower y) v r q); auto; ord HO. }
        assert (R2 : o_le p3 r = true). { apply (nl_div_anti N HN u (aupper x) (alower y) r p3); auto. }
        clear - HO R1 R2 C3. ord HO.
  Qed.
End Arith.
