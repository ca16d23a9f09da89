(** Extended real numbers with NaN: the values of a floating-point type, seen as numbers.  Used as the value type of the
    exact-arithmetic idealisation (RealNum below) and as the codomain of the interpretation of IEEE-754 numbers
    (FloatNum.v).  The two zeros of IEEE-754 are identified here. *)
From Coq Require Import Reals Bool Lra Psatz.
From Flocq Require Import Core.
From Verif Require Import Outcome Num NumLaws.
Open Scope R_scope.

Inductive xr := XNan | XNinf | XFin (r : R) | XPinf.

Definition xle (x y : xr) : bool :=
  match x, y with
  | XNan, _ | _, XNan => false
  | XNinf, _ | _, XPinf => true
  | XFin a, XFin b => Rle_bool a b
  | _, _ => false
  end.
Definition xlt (x y : xr) : bool := xle x y && negb (xle y x).
Definition xeq (x y : xr) : bool := xle x y && xle y x.

Definition xopp (x : xr) : xr :=
  match x with XNan => XNan | XNinf => XPinf | XFin r => XFin (- r) | XPinf => XNinf end.
Definition xabs (x : xr) : xr :=
  match x with XNan => XNan | XNinf => XPinf | XFin r => XFin (Rabs r) | XPinf => XPinf end.
Definition xadd (x y : xr) : xr :=
  match x, y with
  | XNan, _ | _, XNan => XNan
  | XPinf, XNinf | XNinf, XPinf => XNan
  | XPinf, _ | _, XPinf => XPinf
  | XNinf, _ | _, XNinf => XNinf
  | XFin a, XFin b => XFin (a + b)
  end.
Definition xsub (x y : xr) : xr := xadd x (xopp y).
(** [s * infinity] for a number [s] *)
Definition xsinf (s : R) : xr := match Rcompare s 0 with Lt => XNinf | Eq => XNan | Gt => XPinf end.
Definition xmul (x y : xr) : xr :=
  match x, y with
  | XNan, _ | _, XNan => XNan
  | XPinf, XPinf | XNinf, XNinf => XPinf
  | XPinf, XNinf | XNinf, XPinf => XNinf
  | XPinf, XFin b => xsinf b
  | XFin a, XPinf => xsinf a
  | XNinf, XFin b => xsinf (- b)
  | XFin a, XNinf => xsinf (- a)
  | XFin a, XFin b => XFin (a * b)
  end.
(** Division; a zero divisor counts as +0. *)
Definition xdiv (x y : xr) : xr :=
  match x, y with
  | XNan, _ | _, XNan => XNan
  | XPinf, XPinf | XNinf, XNinf | XPinf, XNinf | XNinf, XPinf => XNan
  | XPinf, XFin b => if Rlt_bool b 0 then XNinf else XPinf
  | XNinf, XFin b => if Rlt_bool b 0 then XPinf else XNinf
  | XFin a, XPinf | XFin a, XNinf => XFin 0
  | XFin a, XFin b => if Req_bool b 0 then xsinf a else XFin (a / b)
  end.

(** Rounding of a result. *)
Definition xround (rd : R -> xr) (x : xr) : xr := match x with XFin r => rd r | _ => x end.

Ltac xcase :=
  repeat match goal with
  | |- context [Rcompare ?a ?b] => destruct (Rcompare_spec a b)
  | H : context [Rcompare ?a ?b] |- _ => destruct (Rcompare_spec a b)
  | |- context [Rle_bool ?a ?b] => destruct (Rle_bool_spec a b)
  | H : context [Rle_bool ?a ?b] |- _ => destruct (Rle_bool_spec a b)
  | |- context [Rlt_bool ?a ?b] => destruct (Rlt_bool_spec a b)
  | H : context [Rlt_bool ?a ?b] |- _ => destruct (Rlt_bool_spec a b)
  | |- context [Req_bool ?a ?b] => destruct (Req_bool_spec a b)
  | H : context [Req_bool ?a ?b] |- _ => destruct (Req_bool_spec a b)
  end.
Ltac xsolve := cbn in *; try discriminate; try contradiction; auto; xcase; cbn in *; try discriminate; try contradiction; try (exfalso; lra); auto; try lra.

Lemma xle_ok a b : xle a b = true -> xle a a = true /\ xle b b = true.
Proof. destruct a, b; xsolve. Qed.
Lemma xle_total a b : xle a a = true -> xle b b = true -> xle a b = true \/ xle b a = true.
Proof. destruct a, b; xsolve. Qed.
Lemma xle_trans a b c : xle a b = true -> xle b c = true -> xle a c = true.
Proof. destruct a, b, c; xsolve. Qed.
Lemma xok_iff a : xle a a = true <-> a <> XNan.
Proof. destruct a; xsolve; split; try congruence; try contradiction. Qed.

Lemma xopp_anti a b : xle a b = true -> xle (xopp b) (xopp a) = true.
Proof. destruct a, b; xsolve. Qed.
Lemma xopp_invol a : xopp (xopp a) = a.
Proof. destruct a; cbn; auto. f_equal. ring. Qed.
Lemma xadd_comm a b : xadd a b = xadd b a.
Proof. destruct a, b; cbn; auto. f_equal. ring. Qed.
Lemma xmul_comm a b : xmul a b = xmul b a.
Proof. destruct a, b; cbn; auto. f_equal. ring. Qed.
Lemma xadd_mono a a' b b' : xle a a' = true -> xle b b' = true -> xadd a b <> XNan -> xadd a' b' <> XNan -> xle (xadd a b) (xadd a' b') = true.
Proof. destruct a, a', b, b'; xsolve. Qed.
Lemma xadd_nan a b : a <> XNan -> b <> XNan -> (xadd a b = XNan <-> (a = XNinf /\ b = XPinf) \/ (a = XPinf /\ b = XNinf)).
Proof. destruct a, b; cbn; intuition congruence. Qed.

Lemma xmul_nan a b : a <> XNan -> b <> XNan ->
  (xmul a b = XNan <-> ((a = XNinf \/ a = XPinf) /\ b = XFin 0) \/ (a = XFin 0 /\ (b = XNinf \/ b = XPinf))).
Proof.
  intros Ha Hb. destruct a, b; try contradiction; cbn; unfold xsinf; xcase;
    (split; [intros E; try discriminate; try (assert (r = 0) as -> by lra); auto|
             intros [[[E|E] F]|[F [E|E]]]; try discriminate; try injection F as ->; auto; exfalso; lra]).
Qed.
Lemma xmul_pos a a' c : xle a a' = true -> xle (XFin 0) c = true -> xmul a c <> XNan -> xmul a' c <> XNan -> xle (xmul a c) (xmul a' c) = true.
Proof.
  intros H1 H2 N1 N2. destruct a, a', c; cbn in *; unfold xsinf in *; xcase; cbn in *; try discriminate; try contradiction; auto; xcase; auto; exfalso; nra.
Qed.
Lemma xmul_opp a b : xmul a (xopp b) = xopp (xmul a b).
Proof.
  destruct a, b; cbn; unfold xsinf; auto; xcase; cbn; auto; try (exfalso; lra). f_equal. ring.
Qed.
Lemma xmul_neg a a' c : xle a a' = true -> xle c (XFin 0) = true -> xmul a c <> XNan -> xmul a' c <> XNan -> xle (xmul a' c) (xmul a c) = true.
Proof.
  intros H1 H2 N1 N2.
  assert (G : xle (xmul a (xopp c)) (xmul a' (xopp c)) = true).
  { apply xmul_pos; auto; [destruct c; cbn in *; auto; xcase; auto; try discriminate; lra| |]; rewrite xmul_opp; [destruct (xmul a c)|destruct (xmul a' c)]; cbn; congruence. }
  rewrite !xmul_opp in G. apply xopp_anti in G. now rewrite !xopp_invol in G.
Qed.
Lemma xmul_zero a : xmul a (XFin 0) <> XNan -> xmul a (XFin 0) = XFin 0.
Proof. destruct a; cbn; try congruence; unfold xsinf; xcase; try (exfalso; lra); try congruence. intros _. f_equal. ring. Qed.
Lemma xmul_one a : xmul (XFin 1) a = a.
Proof. destruct a; cbn; unfold xsinf; auto; xcase; auto; try (exfalso; lra). f_equal. ring. Qed.
Lemma xmul_mone a : xmul (XFin (-1)) a = xopp a.
Proof. destruct a; cbn; unfold xsinf; auto; xcase; auto; try (exfalso; lra). f_equal. ring. Qed.

Lemma Rdiv_le_pos a a' c : a <= a' -> 0 < c -> a / c <= a' / c.
Proof. intros. apply Rmult_le_compat_r; auto. left. now apply Rinv_0_lt_compat. Qed.
Lemma Rdiv_le_inv a c c' : 0 <= a -> 0 < c -> c <= c' -> a / c' <= a / c.
Proof. intros. apply Rmult_le_compat_l; auto. now apply Rinv_le. Qed.
Lemma Rdiv_opp a c : c <> 0 -> a / (- c) = - (a / c).
Proof. intros. field. auto. Qed.
Lemma xdiv_opp_l a c : xdiv (xopp a) c = xopp (xdiv a c).
Proof.
  destruct a, c; cbn; unfold xsinf; auto; xcase; cbn; auto; try (exfalso; lra); f_equal; try ring; field; auto.
Qed.
Lemma xdiv_opp_r a c : c <> XFin 0 -> xdiv a (xopp c) = xopp (xdiv a c).
Proof.
  intros Hc. assert (Hr : forall r, c = XFin r -> r <> 0) by (intros r -> E; apply Hc; now rewrite E).
  destruct a, c; cbn; unfold xsinf; auto; try specialize (Hr _ eq_refl); xcase; cbn; auto; try (exfalso; lra); f_equal; try ring; field; auto.
Qed.
Lemma xdiv_nan a b : a <> XNan -> b <> XNan ->
  (xdiv a b = XNan <-> ((a = XNinf \/ a = XPinf) /\ (b = XNinf \/ b = XPinf)) \/ (a = XFin 0 /\ b = XFin 0)).
Proof.
  intros Ha Hb. destruct a, b; try contradiction; cbn; unfold xsinf; xcase;
    try (split; [intros E; try discriminate; subst; auto|intros [[[E|E] [F|F]]|[F E]]; try discriminate; try injection F as ->; try injection E as ->; auto; try (exfalso; lra); try contradiction]).
Qed.
Lemma xdiv_mono a a' c : xle a a' = true -> xlt (XFin 0) c = true -> xdiv a c <> XNan -> xdiv a' c <> XNan -> xle (xdiv a c) (xdiv a' c) = true.
Proof.
  unfold xlt. intros H1 H2 N1 N2. destruct a, a', c; cbn in *; unfold xsinf in *; xcase; cbn in *; try discriminate; try contradiction; auto; xcase; auto; exfalso; try lra.
  all: assert (r / r1 <= r0 / r1) by (apply Rdiv_le_pos; lra); lra.
Qed.
Lemma xlt_opp a b : xlt (xopp a) (xopp b) = xlt b a.
Proof. unfold xlt. destruct a, b; xsolve. Qed.
Lemma xopp_nan a : xopp a <> XNan <-> a <> XNan.
Proof. destruct a; cbn; split; congruence. Qed.
Lemma xopp_zero a : xopp a = XFin 0 -> a = XFin 0.
Proof. destruct a; cbn; try discriminate. intros H. injection H as H. f_equal. lra. Qed.
Lemma xlt_0_nz c : xlt c (XFin 0) = true \/ xlt (XFin 0) c = true -> c <> XFin 0.
Proof. unfold xlt. intros H ->. cbn in H. destruct (Rle_bool 0 0); cbn in H; destruct H; discriminate. Qed.
Lemma opp_0 : xopp (XFin 0) = XFin 0. Proof. cbn. f_equal. ring. Qed.
Lemma xdiv_anti a a' c : xle a a' = true -> xlt c (XFin 0) = true -> xdiv a c <> XNan -> xdiv a' c <> XNan -> xle (xdiv a' c) (xdiv a c) = true.
Proof.
  intros H1 H2 N1 N2. pose proof (xlt_0_nz c (or_introl H2)) as Hc.
  assert (G : xle (xdiv a (xopp c)) (xdiv a' (xopp c)) = true).
  { apply xdiv_mono; auto; [rewrite <- opp_0, xlt_opp; exact H2| |]; rewrite xdiv_opp_r by auto; now apply xopp_nan. }
  rewrite !xdiv_opp_r in G by auto. apply xopp_anti in G. now rewrite !xopp_invol in G.
Qed.
Lemma xdiv_pos1 a c c' : xle (XFin 0) a = true -> xle c c' = true -> xlt (XFin 0) c = true ->
  xdiv a c <> XNan -> xdiv a c' <> XNan -> xle (xdiv a c') (xdiv a c) = true.
Proof.
  unfold xlt. intros H1 H2 H3 N1 N2. destruct a, c, c'; cbn in *; unfold xsinf in *; xcase; cbn in *; try discriminate; try contradiction; auto; xcase; auto; exfalso; try lra.
  all: try (assert (r / r1 <= r / r0) by (apply Rdiv_le_inv; lra); lra).
  all: assert (G : 0 / r0 <= r / r0) by (apply Rdiv_le_pos; lra); unfold Rdiv in G at 1; lra.
Qed.
Lemma xlt_le_trans a b c : xlt a b = true -> xle b c = true -> xlt a c = true.
Proof. unfold xlt. destruct a, b, c; xsolve. Qed.
Lemma xle_lt_trans a b c : xle a b = true -> xlt b c = true -> xlt a c = true.
Proof. unfold xlt. destruct a, b, c; xsolve. Qed.
Lemma xdiv_pos a c c' : xle (XFin 0) a = true -> xle c c' = true -> xlt (XFin 0) c = true \/ xlt c' (XFin 0) = true ->
  xdiv a c <> XNan -> xdiv a c' <> XNan -> xle (xdiv a c') (xdiv a c) = true.
Proof.
  intros H1 H2 [H3|H3] N1 N2; [now apply xdiv_pos1|].
  assert (Hc : c <> XFin 0) by (apply xlt_0_nz; left; eapply xle_lt_trans; eauto). pose proof (xlt_0_nz c' (or_introl H3)) as Hc'.
  assert (G : xle (xdiv a (xopp c)) (xdiv a (xopp c')) = true).
  { apply xdiv_pos1; auto; [now apply xopp_anti|rewrite <- opp_0, xlt_opp; exact H3| |]; rewrite xdiv_opp_r by auto; now apply xopp_nan. }
  rewrite !xdiv_opp_r in G by auto. apply xopp_anti in G. now rewrite !xopp_invol in G.
Qed.
Lemma xdiv_neg a c c' : xle a (XFin 0) = true -> xle c c' = true -> xlt (XFin 0) c = true \/ xlt c' (XFin 0) = true ->
  xdiv a c <> XNan -> xdiv a c' <> XNan -> xle (xdiv a c) (xdiv a c') = true.
Proof.
  intros H1 H2 H3 N1 N2.
  assert (G : xle (xdiv (xopp a) c') (xdiv (xopp a) c) = true).
  { apply xdiv_pos; auto; [rewrite <- opp_0; now apply xopp_anti| |]; rewrite xdiv_opp_l; now apply xopp_nan. }
  rewrite !xdiv_opp_l in G. apply xopp_anti in G. now rewrite !xopp_invol in G.
Qed.

(** A value type whose values denote extended reals and whose operators round the exact result obeys the laws. *)
Record denotes (N : num) (rd : R -> xr) (phi : N -> xr) : Prop := {
  d_float : n_float N = true;
  d_disc : o_disc N = false;
  d_succ : forall a : N, o_succ a = Ret a /\ o_pred a = Ret a;
  d_le : forall a b : N, o_le a b = xle (phi a) (phi b);
  d_lt : forall a b : N, o_lt a b = xlt (phi a) (phi b);
  d_eq : forall a b : N, o_eq a b = xeq (phi a) (phi b);
  d_rd_mono : forall r s, r <= s -> xle (rd r) (rd s) = true;
  d_rd_0 : rd 0 = XFin 0;
  d_rd_id : forall a : N, xround rd (phi a) = phi a;
  d_top : phi n_top = XPinf;
  d_bot : phi n_bot = XNinf;
  d_nan : phi n_nan = XNan;
  d_zero : phi n_zero = XFin 0;
  d_one : phi n_one = XFin 1;
  d_mone : phi n_mone = XFin (-1);
  d_neg_one : n_neg (n_one : N) = Ret n_mone;
  d_neg : forall a : N, exists z, n_neg a = Ret z /\ phi z = xopp (phi a);
  d_abs : forall a : N, exists z, n_abs a = Ret z /\ phi z = xabs (phi a);
  d_add : forall a b : N, exists z, n_add a b = Ret z /\ phi z = xround rd (xadd (phi a) (phi b));
  d_sub : forall a b : N, exists z, n_sub a b = Ret z /\ phi z = xround rd (xsub (phi a) (phi b));
  d_mul : forall a b : N, exists z, n_mul a b = Ret z /\ phi z = xround rd (xmul (phi a) (phi b));
  d_div : forall a b : N, exists z, n_div a b = Ret z /\ (phi b <> XFin 0 -> phi z = xround rd (xdiv (phi a) (phi b)))
                                    /\ (phi b = XFin 0 -> (phi z = XNan <-> phi a = XNan \/ phi a = XFin 0));
  d_add_comm : forall a b : N, n_add a b = n_add b a;
  d_mul_comm : forall a b : N, n_mul a b = n_mul b a;
  d_zero_float : forall y : N, is_zero y -> pos_zero y \/ neg_zero y;
  d_pos_zero : forall a y : N, pos_zero y -> (o_lt n_zero a = true -> n_div a y = Ret n_top) /\ (o_lt a n_zero = true -> n_div a y = Ret n_bot);
  d_neg_zero : forall a y : N, neg_zero y -> (o_lt n_zero a = true -> n_div a y = Ret n_bot) /\ (o_lt a n_zero = true -> n_div a y = Ret n_top)
}.

Section Denotes.
  Context {N : num} {rd : R -> xr} {phi : N -> xr} (D : denotes N rd phi).

  Lemma rd_ok r : rd r <> XNan.
  Proof. pose proof (d_rd_mono _ _ _ D r r (Rle_refl r)) as H. now apply xok_iff in H. Qed.
  Lemma xround_nan x : xround rd x = XNan <-> x = XNan.
  Proof. destruct x; cbn; split; auto; try discriminate. intros H. now apply rd_ok in H. Qed.
  Lemma xround_mono x y : x <> XNan -> y <> XNan -> xle x y = true -> xle (xround rd x) (xround rd y) = true.
  Proof.
    intros Hx Hy H. destruct x, y; cbn in *; try discriminate; try contradiction; auto;
      try (match goal with |- context [rd ?r] => pose proof (rd_ok r) as K; destruct (rd r); auto; contradiction end).
    destruct (Rle_bool_spec r r0); [|discriminate]. now apply (d_rd_mono _ _ _ D).
  Qed.
  Lemma ok_phi (a : N) : ok a <-> phi a <> XNan.
  Proof. unfold ok. rewrite (d_le _ _ _ D). apply xok_iff. Qed.
  Lemma xeq_iff x y : xeq x y = true <-> x = y /\ x <> XNan.
  Proof.
    unfold xeq. destruct x, y; cbn; try (split; [discriminate|intros [H K]; congruence]); try (split; [intros _; split; congruence|auto]).
    split.
    - intros H. destruct (Rle_bool_spec r r0), (Rle_bool_spec r0 r); cbn in H; try discriminate. split; [f_equal; lra|discriminate].
    - intros [H _]. injection H as ->. now rewrite Rle_bool_true by lra.
  Qed.
  Lemma zero_phi (a : N) : is_zero a <-> phi a = XFin 0.
  Proof. unfold is_zero. rewrite (d_eq _ _ _ D), (d_zero _ _ _ D), xeq_iff. split; [tauto|intros ->; split; [auto|discriminate]]. Qed.
  Lemma pinf_phi (a : N) : is_pinf a = true <-> phi a = XPinf.
  Proof. unfold is_pinf. rewrite (d_float _ _ _ D). cbn. rewrite (d_eq _ _ _ D), (d_top _ _ _ D), xeq_iff. split; [tauto|intros ->; split; [auto|discriminate]]. Qed.
  Lemma ninf_phi (a : N) : is_ninf a = true <-> phi a = XNinf.
  Proof. unfold is_ninf. rewrite (d_float _ _ _ D). cbn. rewrite (d_eq _ _ _ D), (d_bot _ _ _ D), xeq_iff. split; [tauto|intros ->; split; [auto|discriminate]]. Qed.
  Lemma infinite_phi (a : N) : infinite a <-> phi a = XNinf \/ phi a = XPinf.
  Proof.
    unfold infinite. rewrite (d_float _ _ _ D), !(d_eq _ _ _ D), (d_top _ _ _ D), (d_bot _ _ _ D), !xeq_iff.
    split; [tauto|]. intros [ -> | -> ]; split; auto; [right|left]; split; auto; discriminate.
  Qed.
  Lemma le_phi_eq (a b : N) : phi a = phi b -> ok a -> o_eq a b = true.
  Proof. intros H Ha. apply ok_phi in Ha. rewrite (d_eq _ _ _ D), xeq_iff. auto. Qed.

  Lemma denotes_ord : ord_laws N.
  Proof.
    constructor; unfold ok; intros;
      repeat match goal with H : context [o_le _ _] |- _ => rewrite (d_le _ _ _ D) in H end;
      rewrite ?(d_le _ _ _ D), ?(d_lt _ _ _ D), ?(d_eq _ _ _ D); auto.
    - now apply xle_ok in H.
    - now apply xle_total.
    - eapply xle_trans; eauto.
    - rewrite (d_disc _ _ _ D) in H. discriminate.
    - rewrite (d_disc _ _ _ D) in H. discriminate.
    - rewrite (d_disc _ _ _ D) in H. discriminate.
    - rewrite (d_disc _ _ _ D) in H. discriminate.
    - apply (d_succ _ _ _ D).
  Qed.

  (** rewrite the result of an operation into its denotation *)
  Ltac den := repeat match goal with
    | H : n_neg ?a = Ret ?z |- _ => let E := fresh "E" in let z' := fresh in destruct (d_neg _ _ _ D a) as (z' & E & ?); rewrite H in E; injection E as <-; clear H
    | H : n_add ?a ?b = Ret ?z |- _ => let E := fresh "E" in let z' := fresh in destruct (d_add _ _ _ D a b) as (z' & E & ?); rewrite H in E; injection E as <-; clear H
    | H : n_sub ?a ?b = Ret ?z |- _ => let E := fresh "E" in let z' := fresh in destruct (d_sub _ _ _ D a b) as (z' & E & ?); rewrite H in E; injection E as <-; clear H
    | H : n_mul ?a ?b = Ret ?z |- _ => let E := fresh "E" in let z' := fresh in destruct (d_mul _ _ _ D a b) as (z' & E & ?); rewrite H in E; injection E as <-; clear H
    | H : n_div ?a ?b = Ret ?z |- _ => let E := fresh "E" in let z' := fresh in destruct (d_div _ _ _ D a b) as (z' & E & ? & ?); rewrite H in E; injection E as <-; clear H
    end.
  Ltac xl := repeat match goal with
    | H : context [o_le _ _] |- _ => rewrite (d_le _ _ _ D) in H
    | H : context [o_lt _ _] |- _ => rewrite (d_lt _ _ _ D) in H
    | H : ok _ |- _ => apply ok_phi in H
    end; rewrite ?(d_le _ _ _ D), ?(d_lt _ _ _ D).
  Ltac fin := repeat match goal with H : phi ?z = xround rd ?e |- _ => rewrite H in *; clear H end.

  Ltac divfin := repeat match goal with
    | H : phi ?b <> XFin 0 -> phi ?z = _, Hc : phi ?b <> XFin 0 |- _ => specialize (H Hc); rewrite H in *; clear H
    end.

  Lemma nz_phi (c : N) : o_lt n_zero c = true \/ o_lt c n_zero = true -> phi c <> XFin 0.
  Proof. rewrite !(d_lt _ _ _ D), (d_zero _ _ _ D). intros H. apply xlt_0_nz. tauto. Qed.

  Lemma denotes_laws : num_laws N.
  Proof.
    assert (Z := d_zero _ _ _ D). assert (T := d_top _ _ _ D). assert (B := d_bot _ _ _ D).
    constructor.
    - exact denotes_ord.
    - rewrite (d_float _ _ _ D). discriminate.
    - now rewrite (d_float _ _ _ D), (d_disc _ _ _ D).
    - intros a Ha. xl. rewrite T. destruct (phi a); auto; contradiction.
    - intros a Ha. xl. rewrite B. destruct (phi a); auto; contradiction.
    - xl. rewrite Z, T, B. split; reflexivity.
    - xl. rewrite Z, (d_one _ _ _ D), (d_mone _ _ _ D). unfold xlt. cbn.
      split; [|split; [|exact (d_neg_one _ _ _ D)]]; rewrite Rle_bool_true, Rle_bool_false by lra; reflexivity.
    - intros _ H. xl. apply H. apply (d_nan _ _ _ D).
    - intros _ a b. destruct (d_neg _ _ _ D a) as (? & -> & _), (d_abs _ _ _ D a) as (? & -> & _), (d_add _ _ _ D a b) as (? & -> & _),
        (d_sub _ _ _ D a b) as (? & -> & _), (d_mul _ _ _ D a b) as (? & -> & _), (d_div _ _ _ D a b) as (? & -> & _). repeat split; eauto.
    - intros a b. destruct (d_neg _ _ _ D a) as (? & -> & _), (d_abs _ _ _ D a) as (? & -> & _), (d_add _ _ _ D a b) as (? & -> & _),
        (d_sub _ _ _ D a b) as (? & -> & _), (d_mul _ _ _ D a b) as (? & -> & _), (d_div _ _ _ D a b) as (? & -> & _). repeat split; eauto.
    - intros a z H Oz. apply ok_phi. apply ok_phi in Oz. intros E. apply Oz. destruct H as [H|H].
      + den. rewrite H1, E. reflexivity.
      + destruct (d_abs _ _ _ D a) as (z' & Hz & E'). rewrite H in Hz. injection Hz as <-. rewrite E', E. reflexivity.
    - intros a b z H Oz. rewrite !ok_phi. apply ok_phi in Oz.
      assert (Dz : phi b = XFin 0 \/ phi b <> XFin 0). { destruct (phi b); try (right; discriminate). destruct (Req_dec r 0) as [ -> |]; [left; auto|right; congruence]. }
      split; intros E; apply Oz; destruct H as [H|[H|[H|H]]]; den.
      + rewrite H1, E. reflexivity. + rewrite H1, E. reflexivity. + rewrite H1, E. reflexivity.
      + destruct Dz as [Dz|Dz]; [apply H2; auto|]. rewrite (H1 Dz), E. reflexivity.
      + rewrite H1, E. destruct (phi a); reflexivity. + rewrite H1, E. destruct (phi a); reflexivity. + rewrite H1, E. destruct (phi a); reflexivity.
      + assert (Dz' : phi b <> XFin 0) by congruence. rewrite (H1 Dz'), E. destruct (phi a); reflexivity.
    - intros a z Ha H. den. apply ok_phi. apply ok_phi in Ha. rewrite H1. now apply xopp_nan.
    - intros a b x y H Hx Hy. den. xl. rewrite H1, H2. now apply xopp_anti.
    - intros a b x H Hx. destruct (d_neg _ _ _ D b) as (z & Hz & _). eauto.
    - intros a z Ha H. den. apply zero_phi. apply zero_phi in Ha. rewrite H1, Ha. apply opp_0.
    - intros a z Ha H. den. destruct (d_neg _ _ _ D z) as (v & Hv & E). exists v. split; [exact Hv|]. rewrite H1, xopp_invol in E.
      rewrite (d_eq _ _ _ D), E. apply xeq_iff. apply ok_phi in Ha. auto.
    - intros a H. destruct (d_abs _ _ _ D a) as (z & Hz & E). exists z. split; [exact Hz|]. xl. rewrite Z in H. rewrite (d_eq _ _ _ D), E.
      destruct (phi a); cbn in *; try discriminate; auto. destruct (Rle_bool_spec 0 r); [|discriminate]. rewrite Rabs_pos_eq by auto. now apply xeq_iff.
    - intros a z H Hz. destruct (d_abs _ _ _ D a) as (v & Hv & E). exists v. split; [exact Hv|]. den. xl. rewrite Z in H. rewrite (d_eq _ _ _ D), E, H1.
      destruct (phi a); cbn in *; try discriminate; auto. destruct (Rle_bool_spec r 0); [|discriminate]. rewrite Rabs_left1 by auto. now apply xeq_iff.
    - intros a v _ _. destruct (d_neg _ _ _ D a) as (z & Hz & _). eauto.
    - intros a a' b b' s s' H1 H2 Hs Hs' O1 O2. den. xl. fin. rewrite xround_nan in *. apply xround_mono; auto. now apply xadd_mono.
    - intros a1 a a2 b1 b b2 s1 s2 _ _ _ _ _ _. destruct (d_add _ _ _ D a b) as (z & Hz & _). eauto.
    - intros a b s Ha Hb Hs. den. xl. rewrite ok_phi. fin. rewrite xround_nan, xadd_nan by auto. rewrite !ninf_phi, !pinf_phi. tauto.
    - exact (d_add_comm _ _ _ D).
    - intros a a' b b' s s' H1 H2 Hs Hs' O1 O2. den. xl. fin. rewrite xround_nan in *. apply xround_mono; auto. unfold xsub in *. apply xadd_mono; auto. now apply xopp_anti.
    - intros a1 a a2 b1 b b2 s1 s2 _ _ _ _ _ _. destruct (d_sub _ _ _ D a b) as (z & Hz & _). eauto.
    - intros a b s Ha Hb Hs. den. xl. rewrite ok_phi. fin. rewrite xround_nan. unfold xsub. rewrite xadd_nan by (auto; now apply xopp_nan). rewrite !ninf_phi, !pinf_phi.
      destruct (phi b); cbn; intuition congruence.
    - intros a b nb s Hn Hs. destruct (d_add _ _ _ D a nb) as (t & Ht & E). exists t. split; [exact Ht|]. den. intros Os. xl. rewrite (d_eq _ _ _ D), xeq_iff. split; [|auto].
      rewrite E, H0, H2. reflexivity.
    - exact (d_mul_comm _ _ _ D).
    - intros a a' c p p' H1 H2 Hp Hp' O1 O2. den. xl. rewrite Z in *. fin. rewrite xround_nan in *. apply xround_mono; auto. now apply xmul_pos.
    - intros a a' c p p' H1 H2 Hp Hp' O1 O2. den. xl. rewrite Z in *. fin. rewrite xround_nan in *. apply xround_mono; auto. now apply xmul_neg.
    - intros a1 a a2 c p1 p2 _ _ _ _ _. destruct (d_mul _ _ _ D a c) as (z & Hz & _). eauto.
    - intros a b p Ha Hb Hp. den. xl. rewrite ok_phi. fin. rewrite xround_nan, xmul_nan by auto. rewrite !infinite_phi, !zero_phi. tauto.
    - intros a p Hp Op. den. xl. rewrite zero_phi. rewrite Z in H0. fin. rewrite xround_nan in *. rewrite xmul_zero by auto. cbn. apply (d_rd_0 _ _ _ D).
    - intros a. destruct (d_mul _ _ _ D n_zero a) as (z & Hz & _). eauto.
    - intros a. destruct (d_mul _ _ _ D n_one a) as (z & Hz & E). exists z. split; [exact Hz|]. intros Ha. rewrite (d_one _ _ _ D), xmul_one, (d_rd_id _ _ _ D) in E.
      rewrite (d_eq _ _ _ D), E, xeq_iff. apply ok_phi in Ha. auto.
    - intros a p Hp. den. destruct (d_neg _ _ _ D a) as (z & Hz & E). exists z. split; [exact Hz|]. intros Ha. rewrite (d_mone _ _ _ D), xmul_mone, <- E, (d_rd_id _ _ _ D) in H0.
      rewrite (d_eq _ _ _ D), H0, xeq_iff. split; [auto|]. rewrite E. apply xopp_nan. now apply ok_phi.
    - intros a z _. destruct (d_mul _ _ _ D n_mone a) as (p & Hp & _). eauto.
    - intros a a' c q q' H1 H2 Hq Hq' O1 O2. pose proof (nz_phi c (or_introl H2)) as Hc. den. xl. rewrite Z in *. divfin. rewrite xround_nan in *. apply xround_mono; auto. now apply xdiv_mono.
    - intros a a' c q q' H1 H2 Hq Hq' O1 O2. pose proof (nz_phi c (or_intror H2)) as Hc. den. xl. rewrite Z in *. divfin. rewrite xround_nan in *. apply xround_mono; auto. now apply xdiv_anti.
    - intros a c c' q q' H1 H2 H3 Hq Hq' O1 O2. den. xl. rewrite Z in *.
      assert (Hc : phi c <> XFin 0) by (apply xlt_0_nz; destruct H3; [right; auto|left; eapply xle_lt_trans; eauto]).
      assert (Hc' : phi c' <> XFin 0) by (apply xlt_0_nz; destruct H3; [right; eapply xlt_le_trans; eauto|left; auto]).
      divfin. rewrite xround_nan in *. apply xround_mono; auto. now apply xdiv_pos.
    - intros a c c' q q' H1 H2 H3 Hq Hq' O1 O2. den. xl. rewrite Z in *.
      assert (Hc : phi c <> XFin 0) by (apply xlt_0_nz; destruct H3; [right; auto|left; eapply xle_lt_trans; eauto]).
      assert (Hc' : phi c' <> XFin 0) by (apply xlt_0_nz; destruct H3; [right; eapply xlt_le_trans; eauto|left; auto]).
      divfin. rewrite xround_nan in *. apply xround_mono; auto. now apply xdiv_neg.
    - intros a1 a a2 c q1 q2 _ _ _ _ _. destruct (d_div _ _ _ D a c) as (z & Hz & _). eauto.
    - intros a c1 c c2 q1 q2 _ _ _ _ _ _. destruct (d_div _ _ _ D a c) as (z & Hz & _). eauto.
    - intros a b q Ha Hb Hq. den. xl. rewrite ok_phi, !infinite_phi, !zero_phi.
      assert (Dz : phi b = XFin 0 \/ phi b <> XFin 0). { destruct (phi b); try (right; discriminate). destruct (Req_dec r 0) as [ -> |]; [left; auto|right; congruence]. }
      destruct Dz as [E|E].
      + rewrite (H1 E). rewrite E. intuition congruence.
      + rewrite (H0 E), xround_nan, xdiv_nan by auto. tauto.
    - rewrite (d_float _ _ _ D). discriminate.
    - intros _. apply (d_zero_float _ _ _ D).
    - intros _. apply (d_pos_zero _ _ _ D).
    - intros _. apply (d_neg_zero _ _ _ D).
  Qed.
End Denotes.
