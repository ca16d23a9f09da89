(** Intervals obtainable through the public API (C12): constructors, mutating members, operators and functions of
    IntervalModel.v, applied to intervals obtained before. *)
From Coq Require Import Bool List.
From Verif Require Import Outcome SetModel Spec Num NumLaws IntervalModel IvlSpec IvlProofs ArithProofs ArithProofs2 ArithProofs3 ArithProofs4 ArithProofs5.
Import ListNotations.

(** Operands of operators with a debug-mode precondition are assigned; [whole l u] is a restriction on the arguments of the
    two-argument constructor. *)
Inductive obtainable {N : num} (dbg : bool) (whole : N -> N -> Prop) : ivl N -> Prop :=
| ob_default : obtainable dbg whole ivl_default
| ob_of v : obtainable dbg whole (ivl_of v)
| ob_mk l u Z : whole l u -> mk l u = Ret Z -> obtainable dbg whole Z
| ob_fub b1 b2 Z : from_unordered_bounds b1 b2 = Ret Z -> obtainable dbg whole Z
| ob_copy X : obtainable dbg whole X -> obtainable dbg whole (ivl_copy X)
| ob_reset X Y : obtainable dbg whole X -> obtainable dbg whole Y -> obtainable dbg whole (ireset X Y)
| ob_reset_value X v : obtainable dbg whole X -> obtainable dbg whole (ireset_value X v)
| ob_reset_default X : obtainable dbg whole X -> obtainable dbg whole (ireset_default X)
| ob_assign X Y Z : obtainable dbg whole X -> obtainable dbg whole Y -> iassign X Y = Ret Z -> obtainable dbg whole Z
| ob_assign_value X v : obtainable dbg whole X -> obtainable dbg whole (iassign_value X v)
| ob_unary F X Z : obtainable dbg whole X -> assigned X = true -> In F [iplus dbg; ineg dbg; isquare dbg; icube dbg; iabs dbg] -> F X = Ret Z -> obtainable dbg whole Z
| ob_binary F x y Z : obtainable_arg dbg whole x -> obtainable_arg dbg whole y -> aassigned x = true -> aassigned y = true ->
    In F [iadd dbg; isub dbg; imul dbg; idiv dbg; imin dbg; imax dbg] -> F x y = Ret Z -> obtainable dbg whole Z
| ob_signs s X Z : obtainable dbg whole X -> assigned X = true -> signs_mul_ivl dbg s X = Ret Z -> obtainable dbg whole Z
| ob_scalar_signs v s Z : scalar_mul_signs v s = Ret Z -> obtainable dbg whole Z
| ob_if_else c X Y Z : obtainable dbg whole X -> obtainable dbg whole Y -> iif_else c X Y = Ret Z -> obtainable dbg whole Z
| ob_merge X Y Z : obtainable dbg whole X -> obtainable dbg whole Y -> merge X [Y] = Ret Z -> obtainable dbg whole Z
| ob_intersect X Y Z : obtainable dbg whole X -> obtainable dbg whole Y -> intersect X [Y] = Ret Z -> obtainable dbg whole Z
with obtainable_arg {N : num} (dbg : bool) (whole : N -> N -> Prop) : arg N -> Prop :=
| oa_scalar v : obtainable_arg dbg whole (Sc v)
| oa_interval X : obtainable dbg whole X -> obtainable_arg dbg whole (Iv X).

Scheme obtainable_mut := Induction for obtainable Sort Prop
  with obtainable_arg_mut := Induction for obtainable_arg Sort Prop.

Section Reach.
  Context {N : num} (HN : num_laws N).
  Let HO := nl_ord N HN.
  Implicit Types (X Y Z : ivl N) (u v w l : N) (x y : arg N).

  Definition both (l u : N) : Prop := (nan l <-> nan u).
  Definition good X : Prop := proper X \/ nan_ivl X \/ X = ivl_default.
  Definition agood x : Prop := aproper x \/ (nan (alower x) /\ nan (aupper x)).

  Lemma nan_lt_l u v : nan u -> o_lt u v = false.
  Proof. intros H. apply (nan_iff HN) in H. rewrite (ol_lt _ HO). now rewrite (not_ok_le HO) by auto. Qed.
  Lemma nan_lt_r u v : nan v -> o_lt u v = false.
  Proof. intros H. apply (nan_iff HN) in H. rewrite (ol_lt _ HO). now rewrite (not_ok_le HO) by auto. Qed.
  Lemma omin_nan u v : nan u \/ nan v -> omin u v = u.
  Proof. intros [H|H]; unfold omin; [now rewrite nan_lt_r|now rewrite nan_lt_l]. Qed.
  Lemma omax_nan u v : nan u \/ nan v -> omax u v = u.
  Proof. intros [H|H]; unfold omax; [now rewrite nan_lt_l|now rewrite nan_lt_r]. Qed.
  Lemma assign_good X l u : good X -> o_le l u = true \/ (nan l /\ nan u) -> good (assign_bounds X l u).
  Proof.
    intros HX H. unfold assign_bounds. destruct H as [H|[H1 H2]].
    - destruct HX as [HX|[[H1 H2]| -> ]].
      + left. exact (is_hull_proper HO _ _ (assign_bounds_hull HO X (Ivl l u) HX H)).
      + right. left. rewrite omin_nan, omax_nan by auto. now destruct X.
      + left. destruct (default_assign HN (Ivl l u) H) as (Z & HZ & Hh). unfold iassign in HZ. rewrite (proper_assigned HO (Ivl l u) H) in HZ. cbn in HZ. injection HZ as <-.
        exact (is_hull_proper HO _ _ Hh).
    - rewrite omin_nan, omax_nan by auto. now destruct X.
  Qed.
  Lemma value_ends u : o_le u u = true \/ (nan u /\ nan u).
  Proof. destruct (ok_dec HN u); auto. Qed.
  Lemma good_of v : good (ivl_of v).
  Proof. destruct (ok_dec HN v); [left|right; left]; [exact H|split; exact H]. Qed.
  Lemma good_ends X : good X -> assigned X = true -> o_le (lo X) (hi X) = true \/ (nan (lo X) /\ nan (hi X)).
  Proof. intros [H|[H| -> ]] HA; [auto|auto|]. rewrite (default_unassigned HN) in HA. discriminate. Qed.
  Lemma good_agood X : good X -> assigned X = true -> agood (Iv X). Proof. intros H HA. exact (good_ends X H HA). Qed.
  Lemma mk_good l u Z : o_le l u = true \/ (nan l <-> nan u) -> mk l u = Ret Z -> good Z.
  Proof.
    intros H HZ. apply mk_iff in HZ as [ -> HZ]. destruct (ok_dec HN l) as [Ol|Ol], (ok_dec HN u) as [Ou|Ou].
    - left. apply (assigned_proper HO); auto. unfold assigned. cbn. now rewrite HZ.
    - destruct H as [H|H]; [left; exact H|]. apply H in Ou. apply (nan_iff HN) in Ou. contradiction.
    - destruct H as [H|H]; [left; exact H|]. apply H in Ol. apply (nan_iff HN) in Ol. contradiction.
    - right. left. split; auto.
  Qed.
  Lemma assign_ret_good X Y Z : good X -> good Y -> iassign X Y = Ret Z -> good Z.
  Proof.
    intros HX HY. unfold iassign. destruct (assigned Y) eqn:E; [|discriminate]. cbn. intros HZ. injection HZ as <-.
    apply assign_good; [exact HX|]. exact (good_ends Y HY E).
  Qed.
  Lemma nan_result u v s : n_add u v = Ret s \/ n_sub u v = Ret s \/ n_mul u v = Ret s \/ n_div u v = Ret s -> nan u \/ nan v -> nan s.
  Proof. intros H Hn. apply (nan_iff HN). intros Os. destruct (nl_strict2 N HN u v s H Os). rewrite !(nan_iff HN) in Hn. tauto. Qed.
  Lemma float_of_nan u : nan u -> n_float N = true.
  Proof. intros H. destruct (n_float N) eqn:E; auto. apply (nan_iff HN) in H. destruct (H (nl_int_ok N HN E u)). Qed.
  Lemma nan_interval_good Z : @nan_interval N = Ret Z -> n_float N = true -> good Z.
  Proof. intros HZ Hf. destruct (nan_interval_nan HN Hf) as (Z' & H1 & H2). rewrite HZ in H1. injection H1 as <-. right. left. exact H2. Qed.
  Lemma op_good f F x y : op_ok f F x y -> (nan_pair f x y \/ ~ nan_pair f x y) -> forall Z, F = Ret Z -> good Z.
  Proof. intros [_ H] D Z HZ. destruct (H Z HZ) as (_ & H1 & H2). destruct D as [D|D]; [right; left; auto|left; exact (is_hull_proper HO _ _ (H2 D))]. Qed.
  Lemma mk_nan_good l u Z : nan l -> nan u -> mk l u = Ret Z -> good Z.
  Proof. intros H1 H2. apply mk_good. right. tauto. Qed.
  Lemma hull2_nan u v Z : nan u -> nan v -> hull2 u v = Ret Z -> good Z.
  Proof. intros H1 H2. unfold hull2. rewrite omin_nan, omax_nan by auto. apply mk_nan_good; auto. Qed.
  Lemma hull4_nan u1 u2 u3 u4 Z : nan u1 -> nan u2 -> nan u3 -> nan u4 -> hull4 u1 u2 u3 u4 = Ret Z -> good Z.
  Proof. intros H1 H2 H3 H4. unfold hull4. rewrite (omin_nan u1 u2), (omin_nan u3 u4), (omin_nan u1 u3), (omax_nan u1 u2), (omax_nan u3 u4), (omax_nan u1 u3) by auto. apply mk_nan_good; auto. Qed.
  Definition nan_arg x : Prop := nan (alower x) /\ nan (aupper x).
  Ltac bnd := repeat match goal with
    | H : (_ <- ?e ;; _) = Ret _ |- _ => let E := fresh "E" in destruct e eqn:E; cbn [bind] in H; try discriminate H
    end.
  Lemma corners_nan (f : N -> N -> outcome N) x y Z : (forall u v s, f u v = Ret s -> nan u \/ nan v -> nan s) -> nan_arg x \/ nan_arg y ->
    (match x, y with
         | Sc a, _ => v1 <- f a (alower y) ;; v2 <- f a (aupper y) ;; hull2 v1 v2
         | Iv X, Sc b => v1 <- f (lo X) b ;; v2 <- f (hi X) b ;; hull2 v1 v2
         | Iv X, Iv Y =>
             v1 <- f (lo X) (lo Y) ;; v2 <- f (lo X) (hi Y) ;;
             v3 <- f (hi X) (lo Y) ;; v4 <- f (hi X) (hi Y) ;; hull4 v1 v2 v3 v4
         end) = Ret Z -> good Z.
  Proof.
    intros Hs Hn HZ. unfold nan_arg in Hn. destruct x as [a|X]; [|destruct y as [b|Y]]; cbn in Hn; bnd.
    - eapply hull2_nan; [| |exact HZ]; eapply Hs; eauto; tauto.
    - eapply hull2_nan; [| |exact HZ]; eapply Hs; eauto; tauto.
    - eapply hull4_nan; [| | | |exact HZ]; eapply Hs; eauto; tauto.
  Qed.
  Lemma binary_good dbg F x y Z : agood x -> agood y -> aassigned x = true -> aassigned y = true ->
    In F [iadd dbg; isub dbg; imul dbg; idiv dbg; imin dbg; imax dbg] -> F x y = Ret Z -> good Z.
  Proof.
    intros Gx Gy Ax Ay HF HZ.
    assert (Pre : expects_debug dbg (aassigned x && aassigned y) = Ret tt) by (rewrite Ax, Ay; now destruct dbg).
    assert (C : (aproper x /\ aproper y) \/ (nan_arg x \/ nan_arg y)) by (unfold agood, nan_arg in *; tauto).
    destruct C as [[Px Py]|Hn].
    - cbn in HF. destruct HF as [<-|[<-|[<-|[<-|[<-|[<-|[]]]]]]].
      + eapply op_good; [exact (add_op_ok HN dbg x y Px Py)| |exact HZ]. rewrite <- (add_nan_iff HN x y Px Py). destruct (n_float N && _); auto.
      + eapply op_good; [exact (sub_op_ok HN dbg x y Px Py)| |exact HZ]. rewrite <- (sub_nan_iff HN x y Px Py). destruct (n_float N && _); auto.
      + eapply op_good; [exact (mul_op_ok HN dbg x y Px Py)| |exact HZ]. rewrite <- (mul_nan_iff HN x y Px Py). destruct (n_float N && _); auto.
      + destruct (n_float N) eqn:Hf.
        * destruct (div_nan HN dbg x y Px Py Hf) as (Z' & HZ' & H1 & H2). rewrite HZ in HZ'. injection HZ' as <-.
          assert (D : nan_pair n_div x y \/ ~ nan_pair n_div x y).
          { rewrite (div_nan_iff HN x y Px Py Hf). set (p := (_ || _) && _). set (q := (_ && _) && (_ && _)). destruct p, q; auto. right. intros [H|H]; discriminate H. }
          destruct D; [right; left|left]; auto.
        * assert (D : (exists v, ael y v /\ is_zero v) \/ ~ exists v, ael y v /\ is_zero v). { rewrite <- (azero_iff HN y Py). set (p := _ && _). destruct p; auto. }
          destruct D as [D|D].
          -- destruct y as [b|Y].
             ++ destruct D as (v & Hv & Zv). apply (ael_sc HO) in Hv. assert (Zb : is_zero b) by (unfold is_zero, same_value in *; clear - HO Hv Zv; ord HO).
                destruct x as [a|X]; [|rewrite (div_int_scalar_zero HN dbg X b Px Zb Hf) in HZ; discriminate].
                unfold idiv in HZ. rewrite Pre in HZ. cbn in HZ. rewrite Hf in HZ. destruct (_ && _); [discriminate|]. rewrite (nl_div_zero_int N HN Hf a b Zb) in HZ. discriminate.
             ++ rewrite (proj2 (div_int_trap HN dbg x Y Px Py Hf)) in HZ by exact D. discriminate.
          -- eapply op_good; [exact (div_zero_free HN dbg x y Px Py (proj2 (zero_free_iff HN y Py) D))| |exact HZ]. right. intros (a & b & s & _ & _ & _ & Ns). apply (nan_iff HN) in Ns. destruct (Ns (nl_int_ok N HN Hf s)).
      + destruct (imin_hull HO dbg x y Px Py) as (Z' & HZ' & Hh). rewrite HZ in HZ'. injection HZ' as <-. left. exact (is_hull_proper HO _ _ Hh).
      + destruct (imax_hull HO dbg x y Px Py) as (Z' & HZ' & Hh). rewrite HZ in HZ'. injection HZ' as <-. left. exact (is_hull_proper HO _ _ Hh).
    - assert (Hf : n_float N = true) by (destruct Hn as [[H _]|[H _]]; exact (float_of_nan _ H)).
      cbn in HF. destruct HF as [<-|[<-|[<-|[<-|[<-|[<-|[]]]]]]].
      + unfold iadd in HZ. rewrite Pre in HZ. cbn [bind] in HZ. destruct (n_float N && _); [exact (nan_interval_good Z HZ Hf)|]. bnd.
        eapply mk_nan_good; [| |exact HZ]; (eapply nan_result; [left; eassumption|]); unfold nan_arg in Hn; tauto.
      + unfold isub in HZ. rewrite Pre in HZ. cbn [bind] in HZ. destruct (n_float N && _); [exact (nan_interval_good Z HZ Hf)|]. bnd.
        eapply mk_nan_good; [| |exact HZ]; (eapply nan_result; [right; left; eassumption|]); unfold nan_arg in Hn; tauto.
      + unfold imul in HZ. rewrite Pre in HZ. cbn [bind] in HZ. destruct (n_float N && _); [exact (nan_interval_good Z HZ Hf)|].
        eapply (corners_nan n_mul); [|exact Hn|exact HZ]. intros u v s Hs. apply nan_result. tauto.
      + assert (C : div_corners x y = Ret Z -> good Z). { apply corners_nan; [|exact Hn]. intros u v s Hs. apply nan_result. tauto. }
        assert (I : @inf_interval N = Ret Z -> good Z). { rewrite (inf_interval_ret HN). intros E. injection E as <-. left. exact (bot_le_top HN). }
        assert (J : @nan_interval N = Ret Z -> good Z) by (intros E; exact (nan_interval_good Z E Hf)).
        unfold idiv in HZ. rewrite Pre in HZ. cbn [bind] in HZ. rewrite Hf in HZ.
        destruct x as [a|X]; [|destruct y as [b|Y]]; cbn [andb] in HZ; repeat match type of HZ with (if ?c then _ else _) = _ => destruct c end; auto.
      + unfold imin in HZ. rewrite Pre in HZ. cbn [bind] in HZ. unfold nan_arg in Hn. rewrite !omin_nan in HZ by tauto. revert HZ. apply mk_good. unfold agood in Gx. tauto.
      + unfold imax in HZ. rewrite Pre in HZ. cbn [bind] in HZ. unfold nan_arg in Hn. rewrite !omax_nan in HZ by tauto. revert HZ. apply mk_good. unfold agood in Gx. tauto.
  Qed.
  Lemma unary_good dbg F X Z : good X -> assigned X = true -> In F [iplus dbg; ineg dbg; isquare dbg; icube dbg; iabs dbg] -> F X = Ret Z -> good Z.
  Proof.
    intros GX AX HF HZ. assert (Pre : expects_debug dbg (assigned X) = Ret tt) by (rewrite AX; now destruct dbg).
    assert (O1 : forall f F', op1_ok f F' X -> F' = Ret Z -> good Z). { intros f F' [_ H] E. destruct (H Z E) as (_ & Hh). left. exact (is_hull_proper HO _ _ Hh). }
    destruct (good_ends X GX AX) as [PX|[N1 N2]].
    - cbn in HF. destruct HF as [<-|[<-|[<-|[<-|[<-|[]]]]]].
      + unfold iplus in HZ. rewrite Pre in HZ. cbn in HZ. injection HZ as <-. exact GX.
      + destruct (neg_hull HN dbg X PX) as (_ & H & _). destruct (H Z HZ) as (_ & Hh). left. exact (is_hull_proper HO _ _ Hh).
      + exact (O1 _ _ (square_ok HN dbg X PX) HZ).
      + exact (O1 _ _ (icube_ok HN dbg X PX) HZ).
      + exact (O1 _ _ (iabs_ok HN dbg X PX) HZ).
    - assert (L1 : forall v, o_le (lo X) v = false) by (intros v; apply (not_ok_le HO); left; now apply (nan_iff HN)).
      assert (L2 : forall v, o_le v (hi X) = false) by (intros v; apply (not_ok_le HO); right; now apply (nan_iff HN)).
      assert (S : forall u v s, n_mul u v = Ret s -> nan u \/ nan v -> nan s) by (intros u v s Hs; apply nan_result; tauto).
      assert (S1 : forall u s, n_neg u = Ret s -> nan u -> nan s). { intros u s Hs Nu. apply (nan_iff HN). intros Os. apply (nan_iff HN) in Nu. apply Nu. exact (nl_strict1 N HN u s (or_introl Hs) Os). }
      cbn in HF. destruct HF as [<-|[<-|[<-|[<-|[<-|[]]]]]].
      + unfold iplus in HZ. rewrite Pre in HZ. cbn in HZ. injection HZ as <-. exact GX.
      + unfold ineg in HZ. rewrite Pre in HZ. cbn [bind] in HZ. bnd. eapply mk_nan_good; [| |exact HZ]; eapply S1; eauto.
      + unfold isquare in HZ. rewrite Pre in HZ. cbn [bind] in HZ. rewrite L1 in HZ. cbn [andb] in HZ.
        destruct (n_mul (lo X) (lo X)) as [a| | | |] eqn:Ea; try discriminate HZ. destruct (n_mul (hi X) (hi X)) as [b| | | |] eqn:Eb; try discriminate HZ. cbn in HZ.
        assert (Na : nan a) by eauto. assert (Nb : nan b) by eauto. rewrite omin_nan, omax_nan in HZ by auto. eapply mk_nan_good; [| |exact HZ]; auto.
      + unfold icube in HZ. rewrite Pre in HZ. cbn [bind] in HZ. unfold ncube in HZ. bnd. eapply mk_nan_good; [| |exact HZ]; eapply S; eauto.
      + unfold iabs in HZ. rewrite Pre in HZ. cbn [bind] in HZ. rewrite L1 in HZ. cbn [andb] in HZ. rewrite (nan_lt_l _ _ N1) in HZ. injection HZ as <-. exact GX.
  Qed.
  Lemma narrow_good X Y Z : good X -> good Y -> narrow_interval X Y = Ret Z -> good Z.
  Proof.
    intros GX GY. unfold narrow_interval. set (b1 := omax (lo X) (lo Y)). set (b2 := omin (hi X) (hi Y)).
    assert (B : (ok b1 /\ ok b2) \/ (nan b1 /\ nan b2)).
    { assert (T : forall X, good X -> (ok (lo X) /\ ok (hi X)) \/ (nan (lo X) /\ nan (hi X))).
      { intros W [H|[H| -> ]]; [left|right; exact H|left; exact (conj (ok_top HN) (ok_bot HN))]. unfold proper in H. exact (ol_ok _ HO _ _ H). }
      subst b1 b2. destruct (T X GX) as [[H1 H2]|[H1 H2]], (T Y GY) as [[G1 G2]|[G1 G2]].
      - left. destruct (omax_cases (lo X) (lo Y)) as [-> | ->], (omin_cases (hi X) (hi Y)) as [-> | ->]; auto.
      - left. rewrite omax_nan, omin_nan by auto. auto.
      - right. rewrite omax_nan, omin_nan by auto. auto.
      - right. rewrite omax_nan, omin_nan by auto. auto. }
    clearbody b1 b2. destruct (fub_total HO b1 b2) as (W & HW & AW & Hh). rewrite HW. cbn. intros E. injection E as <-. destruct B as [[B1 B2]|[B1 B2]].
    - left. pose proof (is_hull_proper HO _ _ (Hh B1 B2)) as P. exact P.
    - unfold from_unordered_bounds in HW. rewrite omin_nan, omax_nan in HW by auto. apply mk_iff in HW as [ -> _]. right. left. split; exact B1.
  Qed.
  Lemma fub_good b1 b2 Z : from_unordered_bounds b1 b2 = Ret Z -> good Z.
  Proof.
    intros HZ. destruct (fub_total HO b1 b2) as (W & HW & AW & Hh). rewrite HZ in HW. injection HW as <-.
    destruct (ok_dec HN b1) as [H1|H1], (ok_dec HN b2) as [H2|H2]; [left; exact (is_hull_proper HO _ _ (Hh H1 H2))| | |];
      unfold from_unordered_bounds in HZ; rewrite omin_nan, omax_nan in HZ by auto; rewrite (mk_same HO) in HZ; injection HZ as <-; apply good_of.
  Qed.

  Theorem obtainable_good dbg X : obtainable dbg both X -> good X.
  Proof.
    intros H. induction H using obtainable_mut with (P0 := fun x _ => match x with Sc _ => True | Iv X => good X end); auto.
    - right. auto.
    - apply good_of.
    - eapply mk_good; [right|]; eauto.
    - eapply fub_good; eauto.
    - unfold ivl_copy. destruct (assigned X) eqn:E; [destruct X; auto|right; auto].
    - unfold ireset. destruct Y; auto.
    - apply good_of.
    - right. auto.
    - eapply (assign_ret_good X Y); eauto.
    - apply assign_good; [auto|apply value_ends].
    - eapply unary_good; eauto.
    - assert (G : forall a : arg N, match a with Sc _ => True | Iv X => good X end -> aassigned a = true -> agood a).
      { intros [v|W] Gw Aw; [unfold agood, aproper; cbn; apply value_ends|exact (good_agood W Gw Aw)]. }
      eapply (binary_good dbg F x y); eauto.
    - unfold signs_mul_ivl in e0.
      assert (G1 : forall r, (if scontains s positive_sign then iassign ivl_default X else Ret ivl_default) = Ret r -> good r).
      { intros r. destruct (scontains s positive_sign); [apply assign_ret_good; [right; auto|auto]|]. intros E. injection E as <-. right. auto. }
      bnd. specialize (G1 _ eq_refl).
      assert (G2 : good a0).
      { destruct (scontains s negative_sign); [|injection E0 as <-; auto]. bnd. apply (assign_ret_good a a1); auto. apply (unary_good dbg (ineg dbg) X); auto. cbn. auto. }
      injection e0 as <-. destruct (scontains s zero_sign); [|auto]. apply assign_good; [auto|apply value_ends].
    - unfold scalar_mul_signs in e. cbv zeta in e.
      set (r1 := if scontains s positive_sign then _ else _) in e. assert (G1 : good r1) by (subst r1; destruct (scontains s positive_sign); [apply assign_good; [right; auto|apply value_ends]|right; auto]).
      set (r2 := if scontains s zero_sign then _ else _) in e. assert (G2 : good r2) by (subst r2; destruct (scontains s zero_sign); [apply assign_good; [auto|apply value_ends]|auto]).
      destruct (scontains s negative_sign); bnd; injection e as <-; [apply assign_good; [auto|apply value_ends]|auto].
    - unfold iif_else in e. bnd.
      assert (G1 : good a). { destruct (possibly c); [eapply (assign_ret_good ivl_default X); eauto; right; auto|injection E as <-; right; auto]. }
      destruct (possibly_not c); [eapply (assign_ret_good a Y); eauto|injection e as <-; auto].
    - cbn in e. bnd. injection e as <-. eapply (assign_ret_good X Y); eauto.
    - cbn in e. bnd. injection e as <-. eapply (narrow_good X Y); eauto.
  Qed.
  Lemma good_assigned X : good X -> assigned X = true \/ X = ivl_default.
  Proof.
    intros [H|[[H _]|H]]; [left; exact (proper_assigned HO X H)|left|right; exact H]. unfold assigned. now rewrite (nan_lt_r _ _ H).
  Qed.
End Reach.
