(** Machine intervals and exact real arithmetic (RoundSpec.v). *)
From Coq Require Import Reals ZArith Bool Lra Psatz.
From Flocq Require Import Core BinarySingleNaN.
From Verif Require Import Outcome SetModel MathModel FloatMath MathSpec FloatMathProofs MathWrap Spec Num NumLaws IntervalModel IvlSpec IvlProofs ArithProofs ArithProofs2 ArithProofs3 ArithProofs4 XReal FloatNum FloatProofs
  ValueTypes IvlWrap FloatIntProofs RoundSpec.
Open Scope R_scope.

(** Ranges over boxes. *)
Lemma mul_between a b x c : a <= x <= b -> Rmin (a * c) (b * c) <= x * c <= Rmax (a * c) (b * c).
Proof.
  intros H. destruct (Rle_dec 0 c).
  - rewrite Rmin_left, Rmax_right by nra. nra.
  - rewrite Rmin_right, Rmax_left by nra. nra.
Qed.
Lemma mul_corners a b c d x y : a <= x <= b -> c <= y <= d ->
  Rmin (Rmin (a * c) (a * d)) (Rmin (b * c) (b * d)) <= x * y <= Rmax (Rmax (a * c) (a * d)) (Rmax (b * c) (b * d)).
Proof.
  intros H1 H2. pose proof (mul_between a b x y H1) as K. pose proof (mul_between c d y a H2) as Ka. pose proof (mul_between c d y b H2) as Kb.
  rewrite (Rmult_comm y a), (Rmult_comm c a), (Rmult_comm d a) in Ka. rewrite (Rmult_comm y b), (Rmult_comm c b), (Rmult_comm d b) in Kb.
  revert K Ka Kb. unfold Rmin, Rmax. repeat destruct Rle_dec; intros; lra.
Qed.

Lemma Rle_bool_inv a b : Rle_bool a b = true -> a <= b.
Proof. destruct (Rle_bool_spec a b); [auto|discriminate]. Qed.

Section Round.
  Context (prec emax : Z) (Hp : Prec_gt_0 prec) (He : Prec_lt_emax prec emax).
  Notation F := (float_num prec emax Hp He).
  Notation f2x := (@f2x prec emax).
  Notation rd := (@rd prec emax).
  Let D := float_denotes prec emax Hp He.
  Let HO : ord_laws F := denotes_ord D.
  Implicit Types (x y : arg F) (X : ivl F).

  Lemma nearest_rd r (z : F) : f2x z = rd r -> nearest r z.
  Proof.
    unfold FloatProofs.rd. intros E. split; intros H.
    - rewrite Rlt_bool_true in E by exact H. now apply f2x_fin in E.
    - rewrite Rlt_bool_false in E by exact H. destruct (Rlt_bool r 0), z as [s|[|]| |s m e K]; cbn in E; try discriminate; reflexivity.
  Qed.
  Lemma within_el x u : finite_arg x -> ael x u -> is_finite u = true /\ within x (B2R u).
  Proof.
    intros (F1 & F2 & _) [H1 H2]. rewrite (d_le _ _ _ D) in H1, H2. rewrite (f2x_finite _ _ _ F1) in H1. rewrite (f2x_finite _ _ _ F2) in H2.
    destruct (f2x u) as [| |r|] eqn:E; try discriminate. apply f2x_fin in E as [Fu <-]. cbn in H1, H2.
    split; [exact Fu|]. split; now apply Rle_bool_inv.
  Qed.
  Lemma el_within x (u : F) : finite_arg x -> is_finite u = true -> within x (B2R u) -> ael x u.
  Proof.
    intros (F1 & F2 & _) Fu [H1 H2]. split; rewrite (d_le _ _ _ D); rewrite !f2x_finite by assumption; cbn; now apply Rle_bool_true.
  Qed.
  Lemma finite_aproper x : finite_arg x -> aproper x.
  Proof.
    intros (F1 & F2 & H). unfold aproper. rewrite (d_le _ _ _ D), !f2x_finite by assumption. cbn. now apply Rle_bool_true.
  Qed.
  Lemma end_el x : finite_arg x -> ael x (alower x) /\ ael x (aupper x).
  Proof. intros H. destruct H as (F1 & F2 & K). split; apply el_within; repeat split; auto; lra. Qed.

  Lemma xle_antisym a b : xle a b = true -> xle b a = true -> a = b.
  Proof. destruct a, b; cbn; try discriminate; auto. intros H1 H2. destruct (Rle_bool_spec r r0), (Rle_bool_spec r0 r); try discriminate. f_equal. lra. Qed.
  Lemma eq_x (a b : F) : o_eq a b = true -> f2x a = f2x b.
  Proof. rewrite (d_eq _ _ _ D). unfold xeq. intros H. apply andb_true_iff in H as [H1 H2]. now apply xle_antisym. Qed.

  (** A machine operation [g] that rounds the results of [f]: the hull of its results has the rounded end points of the
      range of [f], provided the range is attained at machine numbers. *)
  Lemma hull_rounds2 (f : R -> R -> R) (g : F -> F -> outcome F) x y Z l u : finite_arg x -> finite_arg y ->
    (forall a b, ael x a -> ael y b -> exists z, g a b = Ret z /\ f2x z = rd (f (B2R a) (B2R b))) ->
    (forall r s, within x r -> within y s -> l <= f r s <= u) ->
    (exists a b, ael x a /\ ael y b /\ f (B2R a) (B2R b) = l) -> (exists a b, ael x a /\ ael y b /\ f (B2R a) (B2R b) = u) ->
    is_hull (img2 g x y) Z -> range2 f x y l u /\ nearest l (lo Z) /\ nearest u (hi Z).
  Proof.
    intros Hx Hy Hg Hr (a & b & Ha & Hb & El) (c & d & Hc & Hd & Eu) (Hin & (v & (p & q & Pp & Pq & Ev) & Evl) & (w & (p' & q' & Pp' & Pq' & Ew) & Ewl)).
    split; [|split].
    - split; [exact Hr|]. split; [exists (B2R a), (B2R b)|exists (B2R c), (B2R d)]; repeat split; auto; now apply within_el.
    - apply nearest_rd. destruct (Hg a b Ha Hb) as (z & Ez & Fz). destruct (Hin z) as [Hz _]; [now exists a, b|].
      rewrite (d_le _ _ _ D), Fz, El in Hz. apply xle_antisym; [exact Hz|].
      rewrite <- (eq_x v (lo Z) Evl). destruct (Hg p q Pp Pq) as (v' & Ev' & Fv). rewrite Ev in Ev'. injection Ev' as <-. rewrite Fv. apply (d_rd_mono _ _ _ D).
      apply Hr; now apply within_el.
    - apply nearest_rd. destruct (Hg c d Hc Hd) as (z & Ez & Fz). destruct (Hin z) as [_ Hz]; [now exists c, d|].
      rewrite (d_le _ _ _ D), Fz, Eu in Hz. apply xle_antisym; [|exact Hz].
      rewrite <- (eq_x w (hi Z) Ewl). destruct (Hg p' q' Pp' Pq') as (v' & Ev' & Fv). rewrite Ew in Ev'. injection Ev' as <-. rewrite Fv. apply (d_rd_mono _ _ _ D).
      apply Hr; now apply within_el.
  Qed.

  Lemma hull_rounds1 (f : R -> R) (g : F -> outcome F) X Z l u : finite_arg (Iv X) ->
    (forall a, el X a -> exists z, g a = Ret z /\ f2x z = rd (f (B2R a))) ->
    (forall r, within (Iv X) r -> l <= f r <= u) ->
    (exists a, el X a /\ f (B2R a) = l) -> (exists a, el X a /\ f (B2R a) = u) ->
    is_hull (img1 g X) Z -> range1 f (Iv X) l u /\ nearest l (lo Z) /\ nearest u (hi Z).
  Proof.
    intros Hx Hg Hr (a & Ha & El) (c & Hc & Eu) Hh.
    assert (Z0 : finite_arg (Sc (B754_zero false : F))) by (repeat split; apply Rle_refl).
    assert (E0 : ael (Sc (B754_zero false : F)) (B754_zero false)) by (split; reflexivity).
    destruct (hull_rounds2 (fun r _ => f r) (fun a _ => g a) (Iv X) (Sc (B754_zero false)) Z l u Hx Z0) as (_ & K).
    - intros a0 b0 H0 _. now apply Hg.
    - intros r s Hs _. now apply Hr.
    - now exists a, (B754_zero false).
    - now exists c, (B754_zero false).
    - destruct Hh as (H1 & (v & (p & Pp & Ev) & Evl) & (w & (q & Pq & Ew) & Ewl)). split; [intros z (p0 & q0 & P0 & _ & E1); apply H1; now exists p0|].
      split; [exists v; split; [now exists p, (B754_zero false)|exact Evl]|exists w; split; [now exists q, (B754_zero false)|exact Ewl]].
    - split; [|exact K]. split; [exact Hr|]. split; [exists (B2R a)|exists (B2R c)]; split; auto; now apply (within_el (Iv X)).
  Qed.

  (** The four operators. *)
  Lemma rd_not_nan r : rd r <> XNan.
  Proof. unfold FloatProofs.rd. destruct Rlt_bool; [discriminate|]. destruct Rlt_bool; discriminate. Qed.
  Lemma no_nan_pair (g : F -> F -> outcome F) f x y : (forall a b, ael x a -> ael y b -> exists z, g a b = Ret z /\ f2x z = rd (f (B2R a) (B2R b))) -> ~ nan_pair g x y.
  Proof.
    intros Hg (u & v & s & Hu & Hv & Es & Ns). destruct (Hg u v Hu Hv) as (z & Ez & Fz). rewrite Es in Ez. injection Ez as <-.
    unfold nan in Ns. rewrite (d_eq _ _ _ D), Fz in Ns. pose proof (rd_not_nan (f (B2R u) (B2R v))) as K.
    destruct (rd (f (B2R u) (B2R v))); try contradiction; cbn in Ns; try discriminate. unfold xeq in Ns. cbn in Ns. rewrite Rle_bool_true in Ns by apply Rle_refl. discriminate.
  Qed.
  Lemma encl_rounds f (g : F -> F -> outcome F) (G : outcome (ivl F)) x y l u : finite_arg x -> finite_arg y ->
    (forall a b, ael x a -> ael y b -> exists z, g a b = Ret z /\ f2x z = rd (f (B2R a) (B2R b))) ->
    (forall r s, within x r -> within y s -> l <= f r s <= u) ->
    (exists a b, ael x a /\ ael y b /\ f (B2R a) (B2R b) = l) -> (exists a b, ael x a /\ ael y b /\ f (B2R a) (B2R b) = u) ->
    encl F g G x y -> rounded_range2 f G x y.
  Proof.
    intros Hx Hy Hg Hr Hl Hu HE. destruct (HE (no_nan_pair g f x y Hg)) as [H1 H2].
    destruct H1 as (Z & EZ). { intros a b Ha Hb. destruct (Hg a b Ha Hb) as (z & Ez & _). eauto. }
    destruct (H2 Z EZ) as [_ Hh]. exists Z, l, u. split; [exact EZ|]. now apply (hull_rounds2 f g).
  Qed.
  Lemma HV : value_type F. Proof. constructor. Qed.

  Lemma round_add dbg x y : finite_arg x -> finite_arg y -> rounded_range2 Rplus (iadd dbg x y) x y.
  Proof.
    intros Hx Hy. destruct (end_el x Hx) as [Lx Ux], (end_el y Hy) as [Ly Uy].
    apply (encl_rounds Rplus n_add _ x y (B2R (alower x) + B2R (alower y)) (B2R (aupper x) + B2R (aupper y))); auto.
    - intros a b Ha Hb. destruct (d_add _ _ _ D a b) as (z & E & Fz). exists z. split; [exact E|].
      rewrite Fz, !f2x_finite; [reflexivity|now apply (within_el y)|now apply (within_el x)].
    - intros r s [R1 R2] [S1 S2]. lra.
    - eauto.
    - eauto.
    - apply (op_ok_encl F), (add_op_ok (value_type_laws F HV) dbg x y); now apply finite_aproper.
  Qed.
  Lemma round_sub dbg x y : finite_arg x -> finite_arg y -> rounded_range2 Rminus (isub dbg x y) x y.
  Proof.
    intros Hx Hy. destruct (end_el x Hx) as [Lx Ux], (end_el y Hy) as [Ly Uy].
    apply (encl_rounds Rminus n_sub _ x y (B2R (alower x) - B2R (aupper y)) (B2R (aupper x) - B2R (alower y))); auto.
    - intros a b Ha Hb. destruct (d_sub _ _ _ D a b) as (z & E & Fz). exists z. split; [exact E|].
      rewrite Fz, !f2x_finite; [reflexivity|now apply (within_el y)|now apply (within_el x)].
    - intros r s [R1 R2] [S1 S2]. lra.
    - eauto.
    - eauto.
    - apply (op_ok_encl F), (sub_op_ok (value_type_laws F HV) dbg x y); now apply finite_aproper.
  Qed.
  (** The least of four values is one of them. *)
  Lemma min4 (P : R -> Prop) a b c d : P a -> P b -> P c -> P d -> P (Rmin (Rmin a b) (Rmin c d)) /\ P (Rmax (Rmax a b) (Rmax c d)).
  Proof. intros. unfold Rmin, Rmax. repeat destruct Rle_dec; auto. Qed.
  Lemma round_mul dbg x y : finite_arg x -> finite_arg y -> rounded_range2 Rmult (imul dbg x y) x y.
  Proof.
    intros Hx Hy. destruct (end_el x Hx) as [Lx Ux], (end_el y Hy) as [Ly Uy].
    pose (P r := exists a b, ael x a /\ ael y b /\ B2R a * B2R b = r).
    destruct (min4 P (B2R (alower x) * B2R (alower y)) (B2R (alower x) * B2R (aupper y)) (B2R (aupper x) * B2R (alower y)) (B2R (aupper x) * B2R (aupper y)))
      as [Hl Hu]; try (unfold P; eauto; fail).
    eapply (encl_rounds Rmult n_mul _ x y); [auto|auto| | |exact Hl|exact Hu|].
    - intros a b Ha Hb. destruct (d_mul _ _ _ D a b) as (z & E & Fz). exists z. split; [exact E|].
      rewrite Fz, !f2x_finite; [reflexivity|now apply (within_el y)|now apply (within_el x)].
    - intros r s Hr Hs. now apply mul_corners.
    - apply (op_ok_encl F), (mul_op_ok (value_type_laws F HV) dbg x y); now apply finite_aproper.
  Qed.
  Lemma inv_between c d s : (0 < c \/ d < 0) -> c <= s <= d -> / d <= / s <= / c.
  Proof.
    intros [H|H] [H1 H2].
    - split; apply Rinv_le; lra.
    - assert (K : / - c <= / - s <= / - d) by (split; apply Rinv_le; lra). rewrite !Rinv_opp in K. lra.
  Qed.
  Lemma round_div dbg x y : finite_arg x -> finite_arg y -> ~ within y 0 -> rounded_range2 Rdiv (idiv dbg x y) x y.
  Proof.
    intros Hx Hy Hz. destruct (end_el x Hx) as [Lx Ux], (end_el y Hy) as [Ly Uy].
    pose (P r := exists a b, ael x a /\ ael y b /\ B2R a / B2R b = r).
    destruct (min4 P (B2R (alower x) / B2R (aupper y)) (B2R (alower x) / B2R (alower y)) (B2R (aupper x) / B2R (aupper y)) (B2R (aupper x) / B2R (alower y)))
      as [Hl Hu]; try (unfold P; eauto; fail).
    assert (NZ : forall b, ael y b -> B2R b <> 0).
    { intros b Hb E. apply Hz. destruct (within_el y b Hy Hb) as [_ W]. now rewrite E in W. }
    assert (Hs : 0 < B2R (alower y) \/ B2R (aupper y) < 0).
    { destruct Hy as (_ & _ & H). unfold within in Hz. lra. }
    eapply (encl_rounds Rdiv n_div _ x y); [auto|auto| | |exact Hl|exact Hu|].
    - intros a b Ha Hb. destruct (d_div _ _ _ D a b) as (z & E & Fz & _). exists z. split; [exact E|].
      destruct (within_el x a Hx Ha) as [Fa _], (within_el y b Hy Hb) as [Fb _]. rewrite f2x_finite in Fz by exact Fb.
      rewrite Fz by (intros K; injection K; now apply NZ). rewrite (f2x_finite _ _ a) by exact Fa. cbn. rewrite Req_bool_false by now apply NZ. reflexivity.
    - intros r s Hr Hs'. apply mul_corners; [exact Hr|]. now apply inv_between.
    - apply (div_zero_free' F HV dbg x y); [now apply finite_aproper|now apply finite_aproper|].
      intros (v & Hv & V). apply (NZ v Hv). apply eq_x in V. rewrite (d_zero _ _ _ D) in V. now apply f2x_fin in V.
  Qed.

  (** Unary functions. *)
  Lemma encl1_rounds f (g : F -> outcome F) (G : outcome (ivl F)) X l u : finite_arg (Iv X) ->
    (forall a, el X a -> exists z, g a = Ret z /\ f2x z = rd (f (B2R a))) ->
    (forall r, within (Iv X) r -> l <= f r <= u) ->
    (exists a, el X a /\ f (B2R a) = l) -> (exists a, el X a /\ f (B2R a) = u) ->
    ((defined1 g X -> exists Z, G = Ret Z) /\ (forall Z, G = Ret Z -> defined1 g X /\ is_hull (img1 g X) Z)) -> rounded_range1 f G (Iv X).
  Proof.
    intros Hx Hg Hr Hl Hu [H1 H2].
    destruct H1 as (Z & EZ). { intros a Ha. destruct (Hg a Ha) as (z & Ez & _). eauto. }
    destruct (H2 Z EZ) as [_ Hh]. exists Z, l, u. split; [exact EZ|]. now apply (hull_rounds1 f g).
  Qed.
  Lemma rd_float (a : F) : is_finite a = true -> f2x a = rd (B2R a).
  Proof. intros H. rewrite <- (d_rd_id _ _ _ D a), (f2x_finite _ _ _ H). reflexivity. Qed.
  Lemma within_iv X r : within (Iv X) r -> B2R (lo X) <= r <= B2R (hi X).
  Proof. exact (fun H => H). Qed.
  Lemma round_neg dbg X : finite_arg (Iv X) -> rounded_range1 Ropp (ineg dbg X) (Iv X).
  Proof.
    intros Hx. destruct (end_el (Iv X) Hx) as [Lx Ux].
    apply (encl1_rounds Ropp n_neg _ X (- B2R (hi X)) (- B2R (lo X))); [auto| | |exists (hi X); auto|exists (lo X); auto|].
    - intros a Ha. destruct (d_neg _ _ _ D a) as (z & E & Fz). exists z. split; [exact E|]. destruct (within_el (Iv X) a Hx Ha) as [Fa _].
      rewrite <- (d_rd_id _ _ _ D z), Fz, (f2x_finite _ _ _ Fa). reflexivity.
    - intros r Hr. apply within_iv in Hr. lra.
    - pose proof (neg_hull (value_type_laws F HV) dbg X (finite_aproper (Iv X) Hx)) as (H1 & H2 & _). auto.
  Qed.
  Lemma zero_el X : finite_arg (Iv X) -> B2R (lo X) <= 0 <= B2R (hi X) -> el X (B754_zero false).
  Proof. intros H K. apply (el_within (Iv X) (B754_zero false) H); auto. Qed.
  Lemma round_abs dbg X : finite_arg (Iv X) -> rounded_range1 Rabs (iabs dbg X) (Iv X).
  Proof.
    intros Hx. destruct (end_el (Iv X) Hx) as [Lx Ux]. assert (O : B2R (lo X) <= B2R (hi X)) by apply Hx.
    assert (G : forall l u, (forall r, within (Iv X) r -> l <= Rabs r <= u) -> (exists a, el X a /\ Rabs (B2R a) = l) -> (exists a, el X a /\ Rabs (B2R a) = u)
      -> rounded_range1 Rabs (iabs dbg X) (Iv X)).
    { intros l u H1 H2 H3. apply (encl1_rounds Rabs n_abs _ X l u); auto.
      - intros a Ha. destruct (d_abs _ _ _ D a) as (z & E & Fz). exists z. split; [exact E|]. destruct (within_el (Iv X) a Hx Ha) as [Fa _].
        rewrite <- (d_rd_id _ _ _ D z), Fz, (f2x_finite _ _ _ Fa). reflexivity.
      - apply (iabs_ok (value_type_laws F HV) dbg X (finite_aproper (Iv X) Hx)). }
    assert (U : exists u, (forall r, within (Iv X) r -> Rabs r <= u) /\ exists a, el X a /\ Rabs (B2R a) = u).
    { exists (Rmax (Rabs (B2R (lo X))) (Rabs (B2R (hi X)))). split.
      - intros r Hr. apply within_iv in Hr. unfold Rmax. destruct Rle_dec; unfold Rabs in *; repeat destruct Rcase_abs; lra.
      - unfold Rmax. destruct Rle_dec; [exists (hi X)|exists (lo X)]; auto. }
    destruct U as (u & U1 & U2).
    destruct (Rle_dec (B2R (lo X)) 0) as [A|A], (Rle_dec 0 (B2R (hi X))) as [B|B].
    - apply (G 0 u); auto; [intros r Hr; split; [apply Rabs_pos|auto]|]. exists (B754_zero false). split; [now apply zero_el|apply Rabs_R0].
    - apply (G (- B2R (hi X)) u); auto; [intros r Hr; split; [|auto]|].
      + apply within_iv in Hr. rewrite Rabs_left by lra. lra.
      + exists (hi X). split; [auto|]. rewrite Rabs_left by lra. reflexivity.
    - apply (G (B2R (lo X)) u); auto; [intros r Hr; split; [|auto]|].
      + apply within_iv in Hr. rewrite Rabs_pos_eq by lra. lra.
      + exists (lo X). split; [auto|]. rewrite Rabs_pos_eq by lra. reflexivity.
    - lra.
  Qed.
  Lemma round_square dbg X : finite_arg (Iv X) -> rounded_range1 (fun r => r * r) (isquare dbg X) (Iv X).
  Proof.
    intros Hx. destruct (end_el (Iv X) Hx) as [Lx Ux]. assert (O : B2R (lo X) <= B2R (hi X)) by apply Hx.
    assert (G : forall l u, (forall r, within (Iv X) r -> l <= r * r <= u) -> (exists a, el X a /\ B2R a * B2R a = l) -> (exists a, el X a /\ B2R a * B2R a = u)
      -> rounded_range1 (fun r => r * r) (isquare dbg X) (Iv X)).
    { intros l u H1 H2 H3. apply (encl1_rounds (fun r => r * r) nsquare _ X l u); auto.
      - intros a Ha. destruct (d_mul _ _ _ D a a) as (z & E & Fz). exists z. split; [exact E|]. destruct (within_el (Iv X) a Hx Ha) as [Fa _].
        rewrite Fz, (f2x_finite _ _ _ Fa). reflexivity.
      - apply (square_ok (value_type_laws F HV) dbg X (finite_aproper (Iv X) Hx)). }
    assert (U : exists u, (forall r, within (Iv X) r -> r * r <= u) /\ exists a, el X a /\ B2R a * B2R a = u).
    { exists (Rmax (B2R (lo X) * B2R (lo X)) (B2R (hi X) * B2R (hi X))). split.
      - intros r Hr. apply within_iv in Hr. destruct (Rle_dec 0 r); [apply Rle_trans with (2 := Rmax_r _ _)|apply Rle_trans with (2 := Rmax_l _ _)]; nra.
      - unfold Rmax. destruct Rle_dec; [exists (hi X)|exists (lo X)]; auto. }
    destruct U as (u & U1 & U2).
    destruct (Rle_dec (B2R (lo X)) 0) as [A|A], (Rle_dec 0 (B2R (hi X))) as [B|B].
    - apply (G 0 u); auto; [intros r Hr; split; [nra|auto]|]. exists (B754_zero false). split; [now apply zero_el|cbn; ring].
    - apply (G (B2R (hi X) * B2R (hi X)) u); auto; [intros r Hr; split; [|auto]|eauto]. apply within_iv in Hr. nra.
    - apply (G (B2R (lo X) * B2R (lo X)) u); auto; [intros r Hr; split; [|auto]|eauto]. apply within_iv in Hr. nra.
    - lra.
  Qed.
  Lemma round_sqrt L dbg X : finite_arg (Iv X) -> 0 <= B2R (lo X) -> rounded_range1 sqrt (isqrt (float_math prec emax Hp He L) dbg X) (Iv X).
  Proof.
    intros Hx H0. destruct (end_el (Iv X) Hx) as [Lx Ux].
    assert (P0 : forall a, el X a -> o_le (n_zero : F) a = true).
    { intros a Ha. destruct (within_el (Iv X) a Hx Ha) as [Fa W]. apply within_iv in W. rewrite (d_le _ _ _ D), (d_zero _ _ _ D), (f2x_finite _ _ _ Fa). cbn. apply Rle_bool_true. lra. }
    destruct (fp_sqrt (fm_float prec emax Hp He L) dbg X (finite_aproper (Iv X) Hx) (P0 _ Lx)) as (Z & EZ & Hh).
    exists Z, (sqrt (B2R (lo X))), (sqrt (B2R (hi X))). split; [exact EZ|].
    apply (hull_rounds1 sqrt (ssqrt (float_math prec emax Hp He L) dbg)); auto.
    - intros a Ha. destruct (within_el (Iv X) a Hx Ha) as [Fa _]. exists (Bsqrt mode_NE a). split.
      + unfold ssqrt, expects_debug, expects. rewrite (P0 a Ha). destruct dbg; reflexivity.
      + rewrite (sqrt_x prec emax Hp He a (P0 a Ha)), (f2x_finite _ _ _ Fa). reflexivity.
    - intros r Hr. apply within_iv in Hr. split; apply sqrt_le_1; lra.
    - eauto.
    - eauto.
  Qed.

  (** Half a unit in the last place. *)
  Lemma nearest_close r (z : F) : nearest r z -> is_finite z = true -> Rabs (B2R z - r) <= half_ulp prec emax (B2R z).
  Proof.
    intros [N1 N2] Hz. destruct (Rlt_or_le (Rabs (rn prec emax r)) (bpow radix2 emax)) as [H|H].
    - destruct (N1 H) as [_ ->]. unfold rn, half_ulp. apply error_le_half_ulp_round; auto with typeclass_instances.
    - rewrite (N2 H) in Hz. discriminate.
  Qed.
  Lemma rounded_encloses f (G : outcome (ivl F)) x y : rounded_range2 f G x y -> nearly_encloses f G x y.
  Proof.
    intros (Z & l & u & EZ & (Hr & _) & Nl & Nu). exists Z. split; [exact EZ|]. intros r s Wr Ws. destruct (Hr r s Wr Ws) as [Lo Up].
    split; intros Hf; [pose proof (nearest_close _ _ Nl Hf) as K|pose proof (nearest_close _ _ Nu Hf) as K]; apply Rabs_le_inv in K; lra.
  Qed.
End Round.

(** [1, 1] + [2^-54, 2^-54] is [1, 1]: end points are not rounded outward. *)
Lemma not_outward : exists (X Y Z : ivl float64) (r s : R), finite_arg (Iv X) /\ finite_arg (Iv Y) /\ iadd true (Iv X) (Iv Y) = Ret Z
  /\ within (Iv X) r /\ within (Iv Y) s /\ ~ (B2R (lo Z) <= r + s <= B2R (hi Z)).
Proof.
  pose (X := Ivl (f64 1 0) (f64 1 0) : ivl float64). pose (Y := Ivl (f64 1 (-54)) (f64 1 (-54)) : ivl float64).
  destruct (round_add 53 1024 prec_gt_0_53 prec_lt_emax_64 true (Iv X) (Iv Y)) as (Z & _ & _ & E & _).
  { repeat split; apply Rle_refl. } { repeat split; apply Rle_refl. }
  exists X, Y, Z, (B2R (lo X)), (B2R (lo Y)). split; [repeat split; apply Rle_refl|]. split; [repeat split; apply Rle_refl|]. split; [exact E|].
  split; [repeat split; apply Rle_refl|]. split; [repeat split; apply Rle_refl|].
  assert (K : B2R (hi Z) = B2R (lo X)).
  { destruct (ret_witness (iadd true (Iv X) (Iv Y)) (fun Z => o_eq (hi Z) (f64 1 0))) as (Z' & E' & K'); [vm_compute; reflexivity|].
    assert (Q : Ret Z = Ret Z') by (transitivity (iadd true (Iv X) (Iv Y)); [now symmetry|exact E']). injection Q as <-. apply eq_x in K'. rewrite (f2x_finite _ _ (f64 1 0)) in K' by reflexivity. exact (proj2 (f2x_fin _ _ _ _ K')). }
  intros [_ H]. apply (Rle_trans _ _ (B2R (lo X))) in H; [|right; exact K]. assert (P : 0 < B2R (lo Y)). { change (0 < F2R (Float radix2 (Z.pos 4503599627370496) (-106))). apply F2R_gt_0. reflexivity. }
  lra.
Qed.
