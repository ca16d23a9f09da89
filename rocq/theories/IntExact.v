(** Integer interval arithmetic in terms of mathematical integers. *)
From Coq Require Import ZArith Bool List Lia.
From Verif Require Import Outcome Num NumLaws SetModel Spec IntervalModel IntNum IntProofs IvlSpec IvlProofs ArithProofs ArithProofs2 ArithProofs3 ArithProofs4 ArithProofs5.
Import ListNotations.
Open Scope Z_scope.

(** Elements of an integer operand as mathematical integers. *)
Definition zel {w} (a : arg (int w)) (z : Z) : Prop :=
  match a with Sc x => z = val x | Iv X => val (lo X) <= z <= val (hi X) end.
Definition representable (w z : Z) : Prop := - 2 ^ (w - 1) <= z <= 2 ^ (w - 1) - 1.
(** [Z] is the exact range of [P]. *)
Definition zhull {w} (P : Z -> Prop) (Z : ivl (int w)) : Prop :=
  (forall z, P z -> val (lo Z) <= z <= val (hi Z)) /\ P (val (lo Z)) /\ P (val (hi Z)).
Definition zimg2 {w} (f : Z -> Z -> Z) (a b : arg (int w)) (z : Z) : Prop := exists x y, zel a x /\ zel b y /\ f x y = z.
Definition zimg1 {w} (f : Z -> Z) (X : ivl (int w)) (z : Z) : Prop := exists x, zel (Iv X) x /\ f x = z.
(** Returns the exact hull if every pointwise result is representable, and is undefined behaviour otherwise. *)
Definition int_exact2 {w} (f : Z -> Z -> Z) (F : outcome (ivl (int w))) (a b : arg (int w)) : Prop :=
  ((forall z, zimg2 f a b z -> representable w z) -> exists Z, F = Ret Z /\ zhull (zimg2 f a b) Z)
  /\ ((exists z, zimg2 f a b z /\ ~ representable w z) -> F = UB).
Definition int_exact1 {w} (f : Z -> Z) (F : outcome (ivl (int w))) (X : ivl (int w)) : Prop :=
  ((forall z, zimg1 f X z -> representable w z) -> exists Z, F = Ret Z /\ zhull (zimg1 f X) Z)
  /\ ((exists z, zimg1 f X z /\ ~ representable w z) -> F = UB).

Section Int.
  Context (w : Z) (Hw : 2 <= w) (dbg : bool).
  Local Notation N := (int_num w Hw).
  Let HN : num_laws N := int_num_laws w Hw.
  Let HO := nl_ord N HN.
  Implicit Types (a b : arg N) (X Y : ivl N).

  Ltac zl := repeat match goal with H : _ |- _ => progress cbn in H end; cbn; lia.
  Lemma le_val (x y : N) : o_le x y = true <-> val x <= val y.
  Proof. exact (Z.leb_le (val x) (val y)). Qed.
  Lemma zel_ael a : aproper a -> forall z, zel a z <-> exists x : N, ael a x /\ val x = z.
  Proof.
    intros Ha z. split.
    - intros H. assert (R : int_min w <= z <= int_max w).
      { destruct a as [x|X]; cbn [zel] in H; [subst; exact (val_range w x)|]. pose proof (val_range w (lo X)). pose proof (val_range w (hi X)). zl. }
      destruct (proj2 (int_of_def w z) R) as (x & Hx). apply int_of_ret in Hx. exists x. split; [|exact Hx]. unfold ael. rewrite !le_val.
      destruct a as [y|X]; cbn [zel alower aupper] in *; zl.
    - intros (x & Hx & <-). unfold ael in Hx. rewrite !le_val in Hx. destruct a as [y|X]; cbn [zel alower aupper] in *; zl.
  Qed.
  Lemma hull_zhull (f : Z -> Z -> Z) (g : N -> N -> outcome N) a b Z : aproper a -> aproper b ->
    (forall x y s, g x y = Ret s -> val s = f (val x) (val y)) -> defined2 g a b -> is_hull (img2 g a b) Z -> zhull (zimg2 f a b) Z.
  Proof.
    intros Ha Hb Hg Hd (A & (l & (x1 & y1 & X1 & Y1 & G1) & E1) & (u & (x2 & y2 & X2 & Y2 & G2) & E2)).
    cbn in E1, E2. apply Z.eqb_eq in E1, E2. split; [|split].
    - intros z (p & q & Hp & Hq & <-). apply (zel_ael a Ha) in Hp as (x & Hx & <-). apply (zel_ael b Hb) in Hq as (y & Hy & <-).
      destruct (Hd x y Hx Hy) as (s & Hs). destruct (A s) as [A1 A2]; [exists x, y; auto|]. cbn in A1, A2. rewrite Z.leb_le in A1, A2. rewrite (Hg x y s Hs) in A1, A2. lia.
    - rewrite <- E1, (Hg _ _ _ G1). exists (val x1), (val y1). split; [apply (zel_ael a Ha); eauto|]. split; [apply (zel_ael b Hb); eauto|reflexivity].
    - rewrite <- E2, (Hg _ _ _ G2). exists (val x2), (val y2). split; [apply (zel_ael a Ha); eauto|]. split; [apply (zel_ael b Hb); eauto|reflexivity].
  Qed.
  Lemma defined2_iff (f : Z -> Z -> Z) (g : N -> N -> outcome N) a b : aproper a -> aproper b ->
    (forall x y, ael a x -> ael b y -> g x y = int_of w (f (val x) (val y))) -> (defined2 g a b <-> forall z, zimg2 f a b z -> representable w z).
  Proof.
    intros Ha Hb Hg. split.
    - intros Hd z (p & q & Hp & Hq & <-). apply (zel_ael a Ha) in Hp as (x & Hx & <-). apply (zel_ael b Hb) in Hq as (y & Hy & <-).
      apply (int_of_def w). rewrite <- Hg by assumption. exact (Hd x y Hx Hy).
    - intros H x y Hx Hy. rewrite Hg by assumption. apply int_of_def. apply H. exists (val x), (val y). split; [apply (zel_ael a Ha); eauto|]. split; [apply (zel_ael b Hb); eauto|reflexivity].
  Qed.
  Lemma no_nan_pair (g : N -> N -> outcome N) a b : ~ nan_pair g a b.
  Proof. intros (x & y & s & _ & _ & _ & H). apply (nan_iff HN) in H. apply H. exact (nl_int_ok N HN eq_refl s). Qed.
  Lemma exact2_of (f : Z -> Z -> Z) (g : N -> N -> outcome N) F a b : aproper a -> aproper b ->
    (forall x y, g x y = int_of w (f (val x) (val y))) -> op_ok g F a b -> (F = UB \/ exists Z, F = Ret Z) -> int_exact2 f F a b.
  Proof.
    intros Ha Hb Hg [H1 H2] Hc. assert (Hg' : forall x y s, g x y = Ret s -> val s = f (val x) (val y)) by (intros x y s Hs; rewrite Hg in Hs; now apply int_of_ret in Hs).
    pose proof (defined2_iff f g a b Ha Hb (fun x y _ _ => Hg x y)) as D. split.
    - intros H. apply D in H. destruct (H1 H) as (Z & HZ). exists Z. split; [exact HZ|]. destruct (H2 Z HZ) as (_ & _ & Hh).
      exact (hull_zhull f g a b Z Ha Hb Hg' H (Hh (no_nan_pair g a b))).
    - intros (z & Hz & Nz). destruct Hc as [Hc|(Z & HZ)]; [exact Hc|]. exfalso. apply Nz. destruct (H2 Z HZ) as (Hd & _). exact (proj1 D Hd z Hz).
  Qed.
  Lemma exact1_of (f : Z -> Z) (g : N -> outcome N) F X : proper X ->
    (forall x, el X x -> (exists s, g x = Ret s) <-> representable w (f (val x))) -> (forall x s, g x = Ret s -> val s = f (val x)) ->
    op1_ok g F X -> (F = UB \/ exists Z, F = Ret Z) -> int_exact1 f F X.
  Proof.
    intros HX Hd Hv [H1 H2] Hc. pose proof (zel_ael (Iv X) HX) as EQ.
    assert (D : defined1 g X <-> forall z, zimg1 f X z -> representable w z).
    { split.
      - intros H z (p & Hp & <-). apply EQ in Hp as (x & Hx & <-). apply Hd; [exact Hx|]. exact (H x Hx).
      - intros H x Hx. apply Hd; [exact Hx|]. apply H. exists (val x). split; [|reflexivity]. apply EQ. exists x. auto. }
    split.
    - intros H. apply D in H. destruct (H1 H) as (Z & HZ). exists Z. split; [exact HZ|]. destruct (H2 Z HZ) as (_ & A & (l & (x1 & X1 & G1) & E1) & (u & (x2 & X2 & G2) & E2)).
      cbn in E1, E2. apply Z.eqb_eq in E1, E2. split; [|split].
      + intros z (p & Hp & <-). apply EQ in Hp as (x & Hx & <-). destruct (H x Hx) as (s & Hs). destruct (A s) as [A1 A2]; [exists x; auto|]. cbn in A1, A2. rewrite Z.leb_le in A1, A2. rewrite (Hv _ _ Hs) in A1, A2. lia.
      + rewrite <- E1, (Hv _ _ G1). exists (val x1). split; [|reflexivity]. apply EQ. exists x1. auto.
      + rewrite <- E2, (Hv _ _ G2). exists (val x2). split; [|reflexivity]. apply EQ. exists x2. auto.
    - intros (z & Hz & Nz). destruct Hc as [Hc|(Z & HZ)]; [exact Hc|]. exfalso. apply Nz. destruct (H2 Z HZ) as (Hd' & _). exact (proj1 D Hd' z Hz).
  Qed.

  Lemma okN (x : N) : ok x. Proof. exact (nl_int_ok N HN eq_refl x). Qed.
  Lemma mk_ret (l u : N) : val l <= val u -> exists Z, mk l u = Ret Z.
  Proof. intros H. rewrite (mk_proper HO l u); [eauto|]. cbn. now apply Z.leb_le. Qed.
  Lemma omm (x y : N) : val (omin x y) = Z.min (val x) (val y) /\ val (omax x y) = Z.max (val x) (val y).
  Proof. unfold omin, omax. cbn. destruct (Z.ltb_spec (val y) (val x)), (Z.ltb_spec (val x) (val y)); split; lia. Qed.
  Lemma corners_ret (f : N -> N -> outcome N) a b : (forall x y, f x y = UB \/ exists s, f x y = Ret s) ->
    let F := (match a, b with
         | Sc p, _ => v1 <- f p (alower b) ;; v2 <- f p (aupper b) ;; hull2 v1 v2
         | Iv X, Sc q => v1 <- f (lo X) q ;; v2 <- f (hi X) q ;; hull2 v1 v2
         | Iv X, Iv Y =>
             v1 <- f (lo X) (lo Y) ;; v2 <- f (lo X) (hi Y) ;;
             v3 <- f (hi X) (lo Y) ;; v4 <- f (hi X) (hi Y) ;; hull4 v1 v2 v3 v4
         end) in F = UB \/ exists Z, F = Ret Z.
  Proof.
    intros Hf.
    assert (H2 : forall v1 v2 : N, exists Z, hull2 v1 v2 = Ret Z) by (intros v1 v2; apply mk_ret; destruct (omm v1 v2) as [-> ->]; lia).
    assert (H4 : forall v1 v2 v3 v4 : N, exists Z, hull4 v1 v2 v3 v4 = Ret Z).
    { intros v1 v2 v3 v4. apply mk_ret. rewrite (proj1 (omm _ _)), (proj2 (omm _ _)). destruct (omm v1 v2) as [-> ->], (omm v3 v4) as [-> ->]. lia. }
    destruct a as [p|X]; [|destruct b as [q|Y]]; cbn zeta.
    - destruct (Hf p (alower b)) as [->|(v1 & ->)]; [now left|]. destruct (Hf p (aupper b)) as [->|(v2 & ->)]; [now left|]. right. apply H2.
    - destruct (Hf (lo X) q) as [->|(v1 & ->)]; [now left|]. destruct (Hf (hi X) q) as [->|(v2 & ->)]; [now left|]. right. apply H2.
    - destruct (Hf (lo X) (lo Y)) as [->|(v1 & ->)]; [now left|]. destruct (Hf (lo X) (hi Y)) as [->|(v2 & ->)]; [now left|].
      destruct (Hf (hi X) (lo Y)) as [->|(v3 & ->)]; [now left|]. destruct (Hf (hi X) (hi Y)) as [->|(v4 & ->)]; [now left|]. right. apply H4.
  Qed.
  Lemma two_ret (m1 m2 : outcome N) : (m1 = UB \/ exists s, m1 = Ret s) -> (m2 = UB \/ exists s, m2 = Ret s) -> (forall l u, m1 = Ret l -> m2 = Ret u -> val l <= val u) ->
    (l <- m1 ;; u <- m2 ;; mk l u) = UB \/ exists Z, (l <- m1 ;; u <- m2 ;; mk l u) = Ret Z.
  Proof. intros [->|(l & ->)]; [now left|]. intros [->|(u & ->)]; [now left|]. intros H. right. cbn. apply mk_ret. auto. Qed.

  Lemma int_add a b : aproper a -> aproper b -> int_exact2 Z.add (iadd dbg a b) a b.
  Proof.
    intros Ha Hb. apply (exact2_of Z.add n_add); auto; [exact (add_op_ok HN dbg a b Ha Hb)|].
    unfold iadd. rewrite (pre_ok HN dbg a b Ha Hb). cbn [bind n_float int_num andb]. apply two_ret; try apply int_of_cases.
    intros l u Hl Hu. apply int_of_ret in Hl, Hu. unfold aproper in *. cbn in *. rewrite Z.leb_le in *. lia.
  Qed.
  Lemma int_sub a b : aproper a -> aproper b -> int_exact2 Z.sub (isub dbg a b) a b.
  Proof.
    intros Ha Hb. apply (exact2_of Z.sub n_sub); auto; [exact (sub_op_ok HN dbg a b Ha Hb)|].
    unfold isub. rewrite (pre_ok HN dbg a b Ha Hb). cbn [bind n_float int_num andb]. apply two_ret; try apply int_of_cases.
    intros l u Hl Hu. apply int_of_ret in Hl, Hu. unfold aproper in *. cbn in *. rewrite Z.leb_le in *. lia.
  Qed.
  Lemma int_mul a b : aproper a -> aproper b -> int_exact2 Z.mul (imul dbg a b) a b.
  Proof.
    intros Ha Hb. apply (exact2_of Z.mul n_mul); auto; [exact (mul_op_ok HN dbg a b Ha Hb)|].
    unfold imul. rewrite (pre_ok HN dbg a b Ha Hb). cbn [bind n_float int_num andb].
    apply (corners_ret n_mul). intros; apply int_of_cases.
  Qed.
  Lemma int_neg X : proper X -> int_exact1 Z.opp (ineg dbg X) X.
  Proof.
    intros HX. apply (exact1_of Z.opp n_neg); auto.
    - intros x _. cbn. apply (int_of_def w).
    - intros x s Hs. now apply int_of_ret in Hs.
    - destruct (neg_hull HN dbg X HX) as (A & B & _). split; assumption.
    - destruct (neg_hull HN dbg X HX) as (_ & _ & [C|C]); [right|left]; exact C.
  Qed.
  Lemma int_square X : proper X -> int_exact1 (fun z => z * z) (isquare dbg X) X.
  Proof.
    intros HX. apply (exact1_of (fun z => z * z) nsquare); auto.
    - intros x _. cbn. apply (int_of_def w).
    - intros x s Hs. now apply int_of_ret in Hs.
    - exact (square_ok HN dbg X HX).
    - unfold isquare. rewrite (pre1_ok HN dbg X HX). cbn [bind].
      assert (C : forall x : N, n_mul x x = UB \/ exists s, n_mul x x = Ret s /\ val s = val x * val x).
      { intros x. cbn. destruct (int_of_cases w (val x * val x)) as [E|(s & E)]; [now left|]. right. exists s. split; [exact E|]. now apply int_of_ret in E. }
      destruct (C (lo X)) as [E1|(p & E1 & V1)]; rewrite E1; [left; destruct (_ && _); reflexivity|].
      destruct (C (hi X)) as [E2|(q & E2 & V2)]; rewrite E2; [left; destruct (_ && _); reflexivity|].
      right. destruct (_ && _); cbn [bind]; apply mk_ret; rewrite ?(proj1 (omm _ _)), ?(proj2 (omm _ _)).
      + change (val (@n_zero N)) with 0. rewrite V1, V2. apply (Z.le_trans _ (val (lo X) * val (lo X))); [|apply Z.le_max_l]. apply Z.square_nonneg.
      + lia.
  Qed.
  Lemma square_representable z : representable w (z * z * z) -> representable w (z * z).
  Proof.
    intros H. destruct (range_facts w Hw) as (_ & E2 & P). unfold int_max in E2. unfold representable in *. rewrite E2 in *.
    assert (C : z = 0 \/ z = 1 \/ z = -1 \/ 2 <= z \/ z <= -2) by lia.
    assert (S : 0 <= z * z) by apply Z.square_nonneg. destruct C as [->|[->|[->|[C|C]]]]; try (cbn; lia); split; nia.
  Qed.
  Lemma int_cube X : proper X -> int_exact1 (fun z => z * z * z) (icube dbg X) X.
  Proof.
    intros HX. apply (exact1_of (fun z => z * z * z) ncube); auto.
    - intros x Hx. unfold ncube. cbn. split.
      + intros (s & Hs). destruct (int_of w (val x * val x)) as [p| | | |] eqn:E; try discriminate. cbn in Hs. apply int_of_ret in E. rewrite E in Hs. apply (int_of_def w). eauto.
      + intros H. destruct (proj2 (int_of_def w (val x * val x)) (square_representable _ H)) as (s & Hs).
        rewrite Hs. cbn. apply int_of_ret in Hs. rewrite Hs. now apply (int_of_def w).
    - intros x s Hs. unfold ncube in Hs. cbn in Hs. destruct (int_of w (val x * val x)) as [p| | | |] eqn:E; try discriminate. cbn in Hs. apply int_of_ret in E, Hs. congruence.
    - exact (icube_ok HN dbg X HX).
    - unfold icube. rewrite (pre1_ok HN dbg X HX). cbn [bind].
      assert (C : forall x : N, ncube x = UB \/ exists s, ncube x = Ret s).
      { intros x. unfold ncube. cbn. destruct (int_of_cases w (val x * val x)) as [->|(p & ->)]; [now left|]. apply int_of_cases. }
      apply two_ret; auto. intros l u Hl Hu. pose proof (cube_mono HN _ _ _ _ HX Hl Hu) as M. cbn in M. now apply Z.leb_le in M.
  Qed.
  Lemma int_abs X : proper X -> int_exact1 Z.abs (iabs dbg X) X.
  Proof.
    intros HX. apply (exact1_of Z.abs nabs); auto.
    - intros x _. cbn. apply (int_of_def w).
    - intros x s Hs. now apply int_of_ret in Hs.
    - exact (iabs_ok HN dbg X HX).
    - unfold iabs. rewrite (pre1_ok HN dbg X HX). cbn [bind].
      assert (C : forall x : N, n_neg x = UB \/ exists s, n_neg x = Ret s /\ val s = - val x).
      { intros x. cbn. destruct (int_of_cases w (- val x)) as [E|(s & E)]; [now left|]. right. exists s. split; [exact E|]. now apply int_of_ret in E. }
      destruct (o_le (lo X) n_zero && o_le n_zero (hi X)) eqn:E.
      + destruct (C (lo X)) as [->|(p & -> & _)]; [now left|]. cbn [bind]. right. apply mk_ret. rewrite (proj2 (omm _ _)).
        apply andb_true_iff in E as [_ E]. rewrite le_val in E. apply (Z.le_trans _ _ _ E), Z.le_max_r.
      + destruct (o_lt (lo X) n_zero); [|right; eauto]. destruct (C (hi X)) as [->|(p & -> & V1)]; [now left|]. destruct (C (lo X)) as [->|(q & -> & V2)]; [now left|].
        cbn [bind]. right. apply mk_ret. rewrite V1, V2. apply -> Z.opp_le_mono. exact (proj1 (le_val _ _) HX).
  Qed.
  (** division: Trap / UB / exact *)
  Lemma int_div a Y : aproper a -> proper Y ->
    (zel (Iv Y) 0 -> idiv dbg a (Iv Y) = Trap) /\ (~ zel (Iv Y) 0 -> int_exact2 Z.quot (idiv dbg a (Iv Y)) a (Iv Y)).
  Proof.
    intros Ha HY. split.
    - intros H0. apply (zel_ael (Iv Y) HY) in H0 as (y & Hy & Ey). apply (div_int_trap HN dbg a Y Ha HY eq_refl). exists y. split; [exact Hy|]. unfold is_zero. cbn. rewrite Ey. reflexivity.
    - intros H0. assert (Zf : zero_free (Iv Y)). { apply (zero_free_iff HN (Iv Y) HY). intros (y & Hy & Ey). apply H0. apply (zel_ael (Iv Y) HY). exists y. split; [exact Hy|]. cbn in Ey. now apply Z.eqb_eq in Ey. }
      assert (NZ : forall y, ael (Iv Y) y -> val y <> 0). { intros y Hy E. apply H0. apply (zel_ael (Iv Y) HY). eauto. }
      destruct (div_zero_free HN dbg a (Iv Y) Ha HY Zf) as [H1 H2].
      assert (Hg : forall x y, ael a x -> ael (Iv Y) y -> @n_div N x y = int_of w (Z.quot (val x) (val y))).
      { intros x y _ Hy. cbn. pose proof (NZ y Hy). destruct (Z.eqb_spec (val y) 0); [contradiction|reflexivity]. }
      assert (Hg' : forall x y s, @n_div N x y = Ret s -> val s = Z.quot (val x) (val y)).
      { intros x y s Hs. cbn in Hs. destruct (val y =? 0); [discriminate|]. now apply int_of_ret in Hs. }
      pose proof (defined2_iff Z.quot n_div a (Iv Y) Ha HY Hg) as D. split.
      + intros H. apply D in H. destruct (H1 H) as (Z & HZ). exists Z. split; [exact HZ|]. destruct (H2 Z HZ) as (_ & _ & Hh).
        exact (hull_zhull Z.quot n_div a (Iv Y) Z Ha HY Hg' H (Hh (no_nan_pair n_div a (Iv Y)))).
      + intros (z & Hz & Nz).
        assert (C : idiv dbg a (Iv Y) = UB \/ exists Z, idiv dbg a (Iv Y) = Ret Z).
        { unfold idiv. rewrite (pre_ok HN dbg a (Iv Y) Ha HY). cbn [bind n_float int_num alower aupper].
          assert (E : @o_le N (lo Y) n_zero && o_le n_zero (hi Y) = false).
          { apply not_true_is_false. rewrite andb_true_iff. cbn. rewrite !Z.leb_le. intros [L1 L2]. apply H0. cbn. lia. }
          rewrite E. assert (DC : forall x y : N, n_div x y = UB \/ exists s, n_div x y = Ret s). { intros x y. cbn. destruct (val y =? 0); [now left|]. apply int_of_cases. }
          pose proof (corners_ret n_div a (Iv Y) DC) as K. cbn zeta in K. destruct a; exact K. }
        destruct C as [C|(Z & HZ)]; [exact C|]. exfalso. apply Nz. destruct (H2 Z HZ) as (Hd & _). exact (proj1 D Hd z Hz).
  Qed.
  (** interval / scalar *)
  Lemma int_div_scalar X (b : N) : proper X -> (val b = 0 -> idiv dbg (Iv X) (Sc b) = UB) /\ (val b <> 0 -> int_exact2 Z.quot (idiv dbg (Iv X) (Sc b)) (Iv X) (Sc b)).
  Proof.
    intros HX. assert (Hb : aproper (Sc b)) by apply (okN b). split.
    - intros H0. apply (div_int_scalar_zero HN dbg X b HX); [|reflexivity]. unfold is_zero. cbn. now rewrite H0.
    - intros H0. assert (Zf : zero_free (Sc b)). { unfold zero_free. cbn. rewrite !Z.ltb_lt. lia. }
      destruct (div_zero_free HN dbg (Iv X) (Sc b) HX Hb Zf) as [H1 H2].
      assert (Hg : forall x y, ael (Iv X) x -> ael (Sc b) y -> @n_div N x y = int_of w (Z.quot (val x) (val y))).
      { intros x y _ [Y1 Y2]. cbn in *. rewrite Z.leb_le in *. destruct (Z.eqb_spec (val y) 0); [lia|reflexivity]. }
      assert (Hg' : forall x y s, @n_div N x y = Ret s -> val s = Z.quot (val x) (val y)).
      { intros x y s Hs. cbn in Hs. destruct (val y =? 0); [discriminate|]. now apply int_of_ret in Hs. }
      pose proof (defined2_iff Z.quot n_div (Iv X) (Sc b) HX Hb Hg) as D. split.
      + intros H. apply D in H. destruct (H1 H) as (Z & HZ). exists Z. split; [exact HZ|]. destruct (H2 Z HZ) as (_ & _ & Hh).
        exact (hull_zhull Z.quot n_div (Iv X) (Sc b) Z HX Hb Hg' H (Hh (no_nan_pair n_div (Iv X) (Sc b)))).
      + intros (z & Hz & Nz).
        assert (C : idiv dbg (Iv X) (Sc b) = UB \/ exists Z, idiv dbg (Iv X) (Sc b) = Ret Z).
        { unfold idiv. rewrite (pre_ok HN dbg (Iv X) (Sc b) HX Hb). cbn [bind n_float int_num alower aupper andb].
          assert (DC : forall x y : N, n_div x y = UB \/ exists s, n_div x y = Ret s). { intros x y. cbn. destruct (val y =? 0); [now left|]. apply int_of_cases. }
          pose proof (corners_ret n_div (Iv X) (Sc b) DC) as K. cbn zeta in K. exact K. }
        destruct C as [C|(Z & HZ)]; [exact C|]. exfalso. apply Nz. destruct (H2 Z HZ) as (Hd & _). exact (proj1 D Hd z Hz).
  Qed.
End Int.
