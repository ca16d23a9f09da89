(** pow of intervals in exact real arithmetic (interval.hpp 482-526, 1057-1090). *)
From Coq Require Import Reals ZArith Zquot Bool Lra Lia.
From Flocq Require Import Core.
From Verif Require Import Outcome SetModel Spec SetProofs Num NumLaws IntervalModel IvlSpec IvlProofs ArithProofs IntNum XReal RealNum
  MathModel RealMath MathSpec MathProofs MonoProofs TrigProofs Atan2Proofs AlgoProofs.
Open Scope R_scope.

(** ** x^y = exp(y log x), with 0 * infinity = 0 *)
Definition xlog (r : R) : xr := if Rle_bool r 0 then XNinf else XFin (ln r).
Definition xexp (x : xr) : xr := match x with XFin r => XFin (exp r) | XNinf => XFin 0 | _ => x end.
Definition xm (s : R) (w : xr) : xr := if Req_bool s 0 then XFin 0 else xmul (XFin s) w.
Lemma Rpow_exp r s : 0 <= r -> Rpow r s = xexp (xm s (xlog r)).
Proof.
  intros H. unfold Rpow, xlog, xm. destruct (Rcompare_spec r 0) as [K|K|K]; [lra| |].
  - rewrite Rle_bool_true by lra. destruct (Rcompare_spec s 0) as [J|J|J].
    + rewrite Req_bool_false by lra. cbn. unfold xsinf. now rewrite Rcompare_Gt by lra.
    + rewrite Req_bool_true by lra. cbn. now rewrite exp_0.
    + rewrite Req_bool_false by lra. cbn. unfold xsinf. now rewrite Rcompare_Lt by lra.
  - rewrite Rle_bool_false by lra. destruct (Req_bool_spec s 0) as [J|J].
    + subst. cbn. rewrite exp_0, Rpower_O by auto. reflexivity.
    + reflexivity.
Qed.
Lemma xm_number s w : w <> XNan -> xm s w <> XNan.
Proof.
  intros H. unfold xm. destruct (Req_bool_spec s 0) as [E|E]; [discriminate|]. destruct w; cbn; try congruence; unfold xsinf; xcase; try discriminate; intros; lra.
Qed.
Lemma xle_refl x : x <> XNan -> xle x x = true. Proof. apply xok_iff. Qed.
Lemma xm_mono_w s w w' : xle w w' = true -> (0 <= s -> xle (xm s w) (xm s w') = true) /\ (s <= 0 -> xle (xm s w') (xm s w) = true).
Proof.
  intros H. unfold xm. destruct (Req_bool_spec s 0) as [E|E]; [split; intros; apply Rle_bool_true; lra|].
  destruct w, w'; try discriminate H; split; intros; cbn in *; unfold xsinf; xcase; cbn; auto; try lra; try discriminate; exfalso; nra.
Qed.
Lemma xm_mono_s s s' w : s <= s' -> (xle (XFin 0) w = true -> xle (xm s w) (xm s' w) = true) /\ (xle w (XFin 0) = true -> xle (xm s' w) (xm s w) = true).
Proof.
  intros H. unfold xm. destruct (Req_bool_spec s 0) as [E|E], (Req_bool_spec s' 0) as [E'|E'];
    destruct w; split; intros K; cbn in *; unfold xsinf; try discriminate; xcase; cbn; auto; try lra; try discriminate; exfalso; nra.
Qed.
Lemma xexp_mono x y : xle x y = true -> xle (xexp x) (xexp y) = true.
Proof.
  destruct x as [| |r|], y as [| |s|]; cbn; auto; try discriminate; intros H; apply Rle_bool_true.
  - lra.
  - pose proof (exp_pos s). lra.
  - apply exp_le. destruct (Rle_bool_spec r s); [auto|discriminate].
Qed.
Lemma xlog_mono a b : a <= b -> xle (xlog a) (xlog b) = true.
Proof. intros H. unfold xlog. destruct (Rle_bool_spec a 0), (Rle_bool_spec b 0); cbn; auto; try lra. apply Rle_bool_true. apply ln_le'; lra. Qed.
Lemma xlog_number a : xlog a <> XNan. Proof. unfold xlog. destruct Rle_bool; discriminate. Qed.

(** ** Operands *)
Definition spans (a : arg real_num) (l u : xr) : Prop := alower a = l /\ aupper a = u /\ xle l u = true.
Lemma bounds_spans a l u : bounds a l u <-> spans a (XFin l) (XFin u).
Proof. unfold bounds, spans. rewrite <- (real_le l u). reflexivity. Qed.
Lemma spans_ael a l u (v : real_num) : spans a l u -> (ael a v <-> xle l v = true /\ xle v u = true).
Proof. intros (E1 & E2 & _). unfold ael. rewrite E1, E2. reflexivity. Qed.
Lemma spans_aproper a l u : spans a l u -> aproper a.
Proof. intros (E1 & E2 & L). unfold aproper. rewrite E1, E2. exact L. Qed.
Lemma spans_sc a l u : spans a l u -> match a with Sc v => v = l /\ l = u | Iv X => lo X = l /\ hi X = u /\ proper X end.
Proof. destruct a as [v|X]; intros (E1 & E2 & L); cbn in *; [split; congruence|]. subst. split; [reflexivity|]. split; [reflexivity|exact L]. Qed.
Lemma real_mk' (l u : real_num) : xle l u = true -> mk l u = Ret (Ivl l u).
Proof. intros H. now apply (mk_proper RO). Qed.

Lemma amax0_ok dbg x a b : spans x (XFin a) (XFin b) -> exists m, amax0 dbg x = Ret m /\ spans m (XFin (Rmax 0 a)) (XFin (Rmax 0 b)).
Proof.
  intros H. pose proof H as (_ & _ & L). apply real_le in L. assert (L' : Rmax 0 a <= Rmax 0 b) by (apply Rle_max_compat_l; auto).
  pose proof (spans_sc _ _ _ H) as K. destruct x as [v|X]; cbn [amax0].
  - destruct K as [-> E]. injection E as <-. eexists. split; [reflexivity|]. change (@n_zero real_num) with (XFin 0). rewrite real_omax. split; [reflexivity|]. split; [reflexivity|now apply real_le].
  - destruct K as (E1 & E2 & P). unfold imax. cbn [aassigned alower aupper andb]. rewrite (proper_assigned RO X P). replace (expects_debug dbg true) with (Ret tt) by (now destruct dbg).
    cbn [bind alower aupper]. rewrite E1, E2. change (@n_zero real_num) with (XFin 0). rewrite !real_omax, real_mk by auto. cbn [bind]. eexists. split; [reflexivity|]. split; [reflexivity|]. split; [reflexivity|now apply real_le].
Qed.
Lemma slog_ok dbg a : 0 <= a -> @slog real_num real_math dbg (XFin a) = Ret (xlog a).
Proof.
  intros H. unfold slog. replace (@o_le real_num n_zero (XFin a)) with true by (symmetry; now apply real_le). replace (expects_debug dbg true) with (Ret tt) by (now destruct dbg).
  cbn. unfold xlog. destruct (Rcompare_spec a 0), (Rle_bool_spec a 0); auto; lra.
Qed.
Lemma alog_ok dbg m a b : spans m (XFin a) (XFin b) -> 0 <= a -> exists l, alog real_math dbg m = Ret l /\ spans l (xlog a) (xlog b).
Proof.
  intros H H0. pose proof H as (_ & _ & L). apply real_le in L. pose proof (xlog_mono a b L) as L'.
  pose proof (spans_sc _ _ _ H) as K. destruct m as [v|X]; cbn [alog].
  - destruct K as [-> E]. injection E as <-. rewrite slog_ok by auto. cbn [bind]. eexists. split; [reflexivity|]. repeat split; auto.
  - destruct K as (E1 & E2 & P). unfold ilog. rewrite (dbg_assigned RO) by auto. cbn [bind]. rewrite E1, E2, !slog_ok by lra. cbn [bind]. rewrite real_mk' by auto. cbn [bind].
    eexists. split; [reflexivity|]. repeat split; auto.
Qed.
Lemma mul0_ok s (w : real_num) : w <> XNan -> @mul0 real_num (XFin s) w = Ret (xm s w).
Proof.
  intros H. unfold mul0. cbn [n_mul real_num bind]. f_equal. unfold xm, nan_b, inf_b, is_ninf, is_pinf. cbn.
  destruct (Req_bool_spec s 0) as [E|E].
  - subst s. destruct w; try congruence; cbn; unfold xeq; cbn; unfold xsinf; xcase; cbn; try reflexivity; try lra.
    + now rewrite Rmult_0_l.
  - destruct w; try congruence; cbn; unfold xeq; cbn; unfold xsinf; xcase; cbn; try reflexivity; try lra.
Qed.
Lemma real_between (z p q : real_num) : (xle p z = true /\ xle z q = true) \/ (xle q z = true /\ xle z p = true) -> between z p q.
Proof. auto. Qed.
Lemma real_okx (x : real_num) : x <> XNan -> ok x. Proof. apply (proj2 (ok_phi real_denotes x)). Qed.
Lemma xm_between_w s w wl wu : xle wl w = true -> xle w wu = true -> @between real_num (xm s w) (xm s wl) (xm s wu).
Proof.
  intros H1 H2. destruct (xm_mono_w s _ _ H1) as [A B], (xm_mono_w s _ _ H2) as [C D]. destruct (Rle_or_lt 0 s) as [K|K]; [left|right]; split; [apply A|apply C|apply D|apply B]; lra.
Qed.
Lemma xm_between_s s sl su w : w <> XNan -> sl <= s <= su -> @between real_num (xm s w) (xm sl w) (xm su w).
Proof.
  intros Hw [H1 H2]. destruct (xm_mono_s _ _ w H1) as [A B], (xm_mono_s _ _ w H2) as [C D].
  destruct (xle_total (XFin 0) w) as [K|K]; [cbn; apply Rle_bool_true; lra|now apply xle_refl|left|right]; split; auto.
Qed.
(** all products lie in the result, whose end points are products of end points *)
Lemma amul0_ok y l c d wl wu : spans y (XFin c) (XFin d) -> spans l wl wu -> exists e, amul0 y l = Ret e /\
  (forall s w, c <= s <= d -> xle wl w = true -> xle w wu = true -> ael e (xm s w : real_num)) /\
  (exists s w, (s = c \/ s = d) /\ (w = wl \/ w = wu) /\ alower e = xm s w) /\
  (exists s w, (s = c \/ s = d) /\ (w = wl \/ w = wu) /\ aupper e = xm s w).
Proof.
  intros Hy Hl. pose proof (spans_sc _ _ _ Hy) as Ky. pose proof (spans_sc _ _ _ Hl) as Kl.
  pose proof Hl as (_ & _ & Ll). destruct (xle_ok _ _ Ll) as [Nl Nu]. apply xok_iff in Nl, Nu.
  destruct y as [v|Y], l as [w0|L]; cbn [amul0].
  - destruct Ky as [-> Ed]. injection Ed as <-. destruct Kl as [-> <-]. rewrite mul0_ok by auto. cbn [bind]. eexists. split; [reflexivity|]. split; [|split; exists c, wl; cbn; auto].
    intros s w Hs H1 H2. assert (s = c) as -> by lra. pose proof (xm_between_w c w _ _ H1 H2) as [B|B]; destruct B as [B1 B2]; split; auto.
  - destruct Ky as [-> Ed]. injection Ed as <-. destruct Kl as (E1 & E2 & P). rewrite E1, E2, !mul0_ok by auto. cbn [bind].
    destruct (hull2_spec real_laws (xm c wl) (xm c wu) (real_okx _ (xm_number c wl Nl)) (real_okx _ (xm_number c wu Nu))) as (Z & -> & HL & HU & HB). cbn [bind]. eexists. split; [reflexivity|].
    split; [|split].
    + intros s w Hs H1 H2. assert (s = c) as -> by lra. apply HB. now apply xm_between_w.
    + destruct HL as [HL|HL]; [exists c, wl|exists c, wu]; auto.
    + destruct HU as [HU|HU]; [exists c, wl|exists c, wu]; auto.
  - destruct Ky as (E1 & E2 & P). destruct Kl as [-> <-]. rewrite E1, E2, !mul0_ok by auto. cbn [bind].
    destruct (hull2_spec real_laws (xm c wl) (xm d wl) (real_okx _ (xm_number c wl Nl)) (real_okx _ (xm_number d wl Nl))) as (Z & -> & HL & HU & HB). cbn [bind]. eexists. split; [reflexivity|].
    split; [|split].
    + intros s w Hs H1 H2. assert (w = wl) as ->.
      { destruct w, wl; cbn in H1, H2; try discriminate; auto. f_equal. destruct (Rle_bool_spec r0 r), (Rle_bool_spec r r0); try discriminate. lra. }
      apply HB. now apply xm_between_s.
    + destruct HL as [HL|HL]; [exists c, wl|exists d, wl]; auto.
    + destruct HU as [HU|HU]; [exists c, wl|exists d, wl]; auto.
  - destruct Ky as (E1 & E2 & P). destruct Kl as (E3 & E4 & P'). rewrite E1, E2, E3, E4, !mul0_ok by auto. cbn [bind].
    destruct (hull4_spec real_laws (xm c wl) (xm c wu) (xm d wl) (xm d wu) (real_okx _ (xm_number c wl Nl)) (real_okx _ (xm_number c wu Nu)) (real_okx _ (xm_number d wl Nl)) (real_okx _ (xm_number d wu Nu)))
      as (Z & -> & HL & HU & HB). cbn [bind]. eexists. split; [reflexivity|]. split; [|split].
    + intros s w Hs H1 H2. apply (HB _ (xm c w) (xm d w)); [now apply xm_between_w|now apply xm_between_w|]. apply xm_between_s; auto. destruct (xle_ok _ _ H1) as [_ Q]. now apply xok_iff.
    + destruct HL as [HL|[HL|[HL|HL]]]; [exists c, wl|exists c, wu|exists d, wl|exists d, wu]; auto.
    + destruct HU as [HU|[HU|[HU|HU]]]; [exists c, wl|exists c, wu|exists d, wl|exists d, wu]; auto.
Qed.
Lemma aexp_ok dbg e : aproper e -> exists f, aexp real_math dbg e = Ret f /\ spans f (xexp (alower e)) (xexp (aupper e)).
Proof.
  intros P. assert (L : xle (xexp (alower e)) (xexp (aupper e)) = true) by (apply xexp_mono; exact P).
  destruct e as [v|X]; cbn [aexp alower aupper].
  - unfold sexp. cbn [bind]. eexists. split; [reflexivity|]. split; [reflexivity|]. split; [reflexivity|exact L].
  - unfold iexp. rewrite (dbg_assigned RO) by exact P. cbn [bind]. unfold sexp. cbn [bind].
    change (m_exp real_math (lo X)) with (xexp (lo X)). change (m_exp real_math (hi X)) with (xexp (hi X)).
    rewrite real_mk' by exact L. cbn [bind]. eexists. split; [reflexivity|]. split; [reflexivity|]. split; [reflexivity|exact L].
Qed.

(** exp(y *0 log(max(0, x))) *)
Definition epow (dbg : bool) (x y : arg real_num) : outcome (arg real_num) :=
  m <- amax0 dbg x ;; l <- alog real_math dbg m ;; e <- amul0 y l ;; aexp real_math dbg e.
Lemma ael_proper' (e : arg real_num) v : ael e v -> aproper e.
Proof. apply (ael_aproper RO). Qed.
Lemma epow_ok dbg x y a b c d : spans x (XFin a) (XFin b) -> spans y (XFin c) (XFin d) -> exists e, epow dbg x y = Ret e /\ aproper e /\
  (forall r s, Rmax 0 a <= r <= Rmax 0 b -> c <= s <= d -> ael e (Rpow r s : real_num)) /\
  (exists r s, (r = Rmax 0 a \/ r = Rmax 0 b) /\ (s = c \/ s = d) /\ alower e = Rpow r s) /\
  (exists r s, (r = Rmax 0 a \/ r = Rmax 0 b) /\ (s = c \/ s = d) /\ aupper e = Rpow r s).
Proof.
  intros Hx Hy. pose proof Hx as (_ & _ & Lx). apply real_le in Lx. pose proof Hy as (_ & _ & Ly). apply real_le in Ly.
  unfold epow. destruct (amax0_ok dbg x a b Hx) as (m & -> & Hm). cbn [bind].
  pose proof (Rmax_l 0 a). pose proof (Rmax_l 0 b). assert (Rmax 0 a <= Rmax 0 b) by (apply Rle_max_compat_l; auto).
  destruct (alog_ok dbg m _ _ Hm ltac:(auto)) as (l & -> & Hl). cbn [bind].
  destruct (amul0_ok y l _ _ _ _ Hy Hl) as (e & -> & He & Hlo & Hhi). cbn [bind].
  assert (Pe : aproper e).
  { apply (ael_proper' e (xm c (xlog (Rmax 0 a)))). apply He; [lra|apply xle_refl, xlog_number|now apply xlog_mono]. }
  destruct (aexp_ok dbg e Pe) as (f & -> & Hf). exists f. split; [reflexivity|]. split; [exact (spans_aproper _ _ _ Hf)|]. split; [|split].
  - intros r s Hr Hs. rewrite (spans_ael _ _ _ _ Hf). rewrite Rpow_exp by lra.
    destruct (He s (xlog r) Hs) as [A B]; [apply xlog_mono; lra|apply xlog_mono; lra|]. split; apply xexp_mono; auto.
  - destruct Hlo as (s & w & Hs & Hw & E). destruct Hf as (F1 & F2 & _). rewrite F1, E.
    destruct Hw as [-> | ->]; [exists (Rmax 0 a), s|exists (Rmax 0 b), s]; rewrite Rpow_exp by auto; auto.
  - destruct Hhi as (s & w & Hs & Hw & E). destruct Hf as (F1 & F2 & _). rewrite F2, E.
    destruct Hw as [-> | ->]; [exists (Rmax 0 a), s|exists (Rmax 0 b), s]; rewrite Rpow_exp by auto; auto.
Qed.
(** assignment to the result *)
Lemma aassign_default e : aproper e -> aassign (@ivl_default real_num) e = Ret (Ivl (alower e) (aupper e)).
Proof.
  intros P. assert (T : forall v : real_num, xle v v = true -> omin (XPinf : real_num) v = v) by (intros [| |r|]; cbn; auto; discriminate).
  assert (B : forall v : real_num, xle v v = true -> omax (XNinf : real_num) v = v) by (intros [| |r|]; cbn; auto; discriminate).
  destruct (xle_ok _ _ P) as [Q1 Q2]. destruct e as [v|X]; cbn [aassign alower aupper] in *.
  - unfold iassign_value, assign_bounds. cbn [lo hi ivl_default]. change (@n_top real_num) with XPinf. change (@n_bot real_num) with XNinf. now rewrite T, B.
  - unfold iassign. rewrite (proper_assigned RO X P). cbn [expects bind]. unfold assign_bounds. cbn [lo hi ivl_default]. change (@n_top real_num) with XPinf. change (@n_bot real_num) with XNinf. now rewrite T, B.
Qed.
Lemma aassign_more (R : ivl real_num) e : proper R -> aproper e -> exists Z, aassign R e = Ret Z /\ (forall v, el R v \/ ael e v -> el Z v).
Proof.
  intros PR P. destruct e as [v|X]; cbn [aassign].
  - eexists. split; [reflexivity|]. apply (assign_bounds_hull RO R (Ivl v v) PR P).
  - destruct (iassign_hull RO R X PR P) as (Z & E & H). exists Z. split; [exact E|]. apply H.
Qed.

Lemma possibly_nonneg_ok dbg x a b : spans x (XFin a) (XFin b) -> possibly_nonneg dbg x = Ret (Rle_bool 0 b).
Proof.
  intros H. pose proof (spans_sc _ _ _ H) as K. pose proof (spans_aproper _ _ _ H) as P. destruct x as [v|X]; cbn [possibly_nonneg].
  - destruct K as [-> E]. injection E as <-. reflexivity.
  - unfold rel_geq. rewrite (rel_pre_ok RO dbg (Iv X) (Sc n_zero)) by (auto; apply real_le; lra). cbn [bind]. f_equal.
    apply eq_iff_eq_true. rewrite possibly_iff. destruct (compare_leq_exact RO (Sc (XFin 0 : real_num)) (Iv X) ltac:(apply real_le; lra) P) as [_ Q].
    change (@n_zero real_num) with (XFin 0). rewrite (Q true). split.
    + intros (u & w & Hu & Hw & E). apply (spans_ael _ _ _ _ H) in Hw as [_ Hw].
      change (Rle_bool 0 b = true). destruct u as [| |r|], w as [| |s|]; try discriminate E; try discriminate Hw; destruct Hu as [U1 U2]; try discriminate U1; try discriminate U2.
      apply real_le in U1, E, Hw. apply Rle_bool_true. lra.
    + intros E. exists (XFin 0), (XFin b). split; [split; apply real_le; lra|]. split; [apply (spans_ael _ _ _ _ H); split; [apply H|apply real_le; lra]|exact E].
Qed.
Lemma possibly_neg_ok dbg x a b : spans x (XFin a) (XFin b) -> possibly_neg dbg x = Ret (Rlt_bool a 0).
Proof.
  intros H. pose proof (spans_sc _ _ _ H) as K. pose proof (spans_aproper _ _ _ H) as P.
  assert (LB : forall r s, @o_lt real_num (XFin r) (XFin s) = Rlt_bool r s).
  { intros r s. destruct (Rlt_bool_spec r s); [now apply real_lt|]. destruct (@o_lt real_num (XFin r) (XFin s)) eqn:E; auto. apply real_lt in E. lra. }
  destruct x as [v|X]; cbn [possibly_neg].
  - destruct K as [-> E]. f_equal. apply LB.
  - unfold rel_lt. rewrite (rel_pre_ok RO dbg (Iv X) (Sc n_zero)) by (auto; apply real_le; lra). cbn [bind]. f_equal.
    apply eq_iff_eq_true. rewrite possibly_iff. destruct (compare_lt_exact RO (Iv X) (Sc (XFin 0 : real_num)) P ltac:(apply real_le; lra)) as [_ Q].
    change (@n_zero real_num) with (XFin 0). rewrite (Q true). split.
    + intros (w & u & Hw & Hu & E). apply (spans_ael _ _ _ _ H) in Hw as [Hw _].
      destruct u as [| |r|], w as [| |s|]; try discriminate E; try discriminate Hw; destruct Hu as [U1 U2]; try discriminate U1; try discriminate U2.
      apply real_le in U2, Hw. apply real_lt in E. apply Rlt_bool_true. lra.
    + intros E. exists (XFin a), (XFin 0). split; [apply (spans_ael _ _ _ _ H); split; [apply real_le; lra|apply H]|]. split; [split; apply real_le; lra|]. now rewrite LB.
Qed.

Lemma ipow_unfold dbg x y a b : spans x (XFin a) (XFin b) -> aproper y -> ipow real_math dbg x y =
  (result <- (if Rle_bool 0 b then e <- epow dbg x y ;; aassign ivl_default e else Ret ivl_default) ;;
   if Rlt_bool a 0 then
     yi <- m_trunc real_math (alower y) ;;
     if o_eq (alower y) (aupper y) && o_eq (m_of_Z real_math yi) (alower y) then
       nx <- aneg dbg x ;; e <- epow dbg nx (Sc (alower y)) ;;
       e <- asign dbg (if Z.rem yi 2 =? 0 then n_one else n_mone)%Z e ;; aassign result e
     else nan_interval
   else Ret result).
Proof.
  intros H P. unfold ipow. rewrite (possibly_nonneg_ok dbg x a b H), (possibly_neg_ok dbg x a b H). cbn [bind].
  rewrite (aproper_assigned RO x (spans_aproper _ _ _ H)), (aproper_assigned RO y P). cbn [andb]. replace (expects_debug dbg true) with (Ret tt) by (now destruct dbg). cbn [bind].
  assert (E : forall A (o : outcome A) (f g : A -> outcome (ivl real_num)), (forall r, f r = g r) -> bind o f = bind o g) by (intros A [r| | | |] f g K; cbn; auto).
  assert (Q : (if Rle_bool 0 b then m <- amax0 dbg x ;; l <- alog real_math dbg m ;; e <- amul0 y l ;; e <- aexp real_math dbg e ;; aassign ivl_default e else Ret ivl_default) =
    (if Rle_bool 0 b then e <- epow dbg x y ;; aassign ivl_default e else Ret (@ivl_default real_num))).
  { destruct (Rle_bool 0 b); [|reflexivity]. unfold epow. destruct (amax0 dbg x) as [m| | | |]; cbn [bind]; auto. destruct (alog real_math dbg m) as [l| | | |]; cbn [bind]; auto. destruct (amul0 y l) as [e| | | |]; cbn [bind]; auto. }
  rewrite Q. apply E. intros r. destruct (Rlt_bool a 0); [|reflexivity]. apply E. intros yi. destruct (o_eq (alower y) (aupper y) && o_eq (m_of_Z real_math yi) (alower y)); [|reflexivity].
  apply E. intros nx. unfold epow. destruct (amax0 dbg nx) as [m| | | |]; cbn [bind]; auto. destruct (alog real_math dbg m) as [l| | | |]; cbn [bind]; auto. destruct (amul0 (Sc (alower y)) l) as [e| | | |]; cbn [bind]; auto.
Qed.

(** non-negative bases: exactly the hull *)
Lemma real_pow_nonneg dbg x y a b c d : bounds x a b -> bounds y c d -> 0 <= a ->
  exists Z, ipow real_math dbg x y = Ret Z /\ is_hull (img2 (spow real_math) x y) Z.
Proof.
  intros Bx By H0. pose proof Bx as (_ & _ & Lx). pose proof By as (_ & _ & Ly).
  pose proof (proj1 (bounds_spans _ _ _) Bx) as Hx. pose proof (proj1 (bounds_spans _ _ _) By) as Hy.
  rewrite (ipow_unfold dbg x y a b Hx (spans_aproper _ _ _ Hy)). rewrite Rle_bool_true, Rlt_bool_false by lra.
  destruct (epow_ok dbg x y _ _ _ _ Hx Hy) as (e & -> & Pe & He & (r & s & Hr & Hs & El) & (r' & s' & Hr' & Hs' & Eu)). cbn [bind]. rewrite aassign_default by auto. cbn [bind].
  eexists. split; [reflexivity|]. rewrite !Rmax_right in * by lra.
  assert (C : forall p q, a <= p <= b -> c <= q <= d -> img2 (spow real_math) x y (Rpow p q)).
  { intros p q Hp Hq. exists (XFin p), (XFin q). split; [apply (real_ael _ _ _ _ Bx); eauto|]. split; [apply (real_ael _ _ _ _ By); eauto|]. reflexivity. }
  split; [|split].
  - intros v (p & q & Hp & Hq & E). apply (real_ael _ _ _ _ Bx) in Hp as (p' & -> & Hp). apply (real_ael _ _ _ _ By) in Hq as (q' & -> & Hq). injection E as <-.
    apply (He p' q' Hp Hq).
  - exists (Rpow r s). split; [apply C; lra|]. cbn [lo]. rewrite El. apply xeq_iff. split; [reflexivity|]. rewrite <- El. destruct (xle_ok _ _ Pe) as [K _]. now apply xok_iff.
  - exists (Rpow r' s'). split; [apply C; lra|]. cbn [hi]. rewrite Eu. apply xeq_iff. split; [reflexivity|]. rewrite <- Eu. destruct (xle_ok _ _ Pe) as [_ K]. now apply xok_iff.
Qed.

(** negative bases *)
Lemma powerRZ_m1 n : powerRZ (-1) n = if (Z.rem n 2 =? 0)%Z then 1 else -1.
Proof.
  rewrite <- Zeven_rem. destruct (Z.even n) eqn:E.
  - apply Z.even_spec in E as [k ->]. replace (2 * k)%Z with (k + k)%Z by ring. rewrite powerRZ_add by lra. rewrite <- powerRZ_mult. replace (-1 * -1) with 1 by ring. apply powerRZ_R1.
  - assert (O : Z.odd n = true) by (rewrite <- Z.negb_even, E; reflexivity). apply Z.odd_spec in O as [k ->]. replace (2 * k + 1)%Z with (k + k + 1)%Z by ring.
    rewrite !powerRZ_add by lra. rewrite <- powerRZ_mult. replace (-1 * -1) with 1 by ring. rewrite powerRZ_R1, powerRZ_1. ring.
Qed.
Lemma Rpow_neg x n : x < 0 -> Rpow x (IZR n) = xmul (XFin (if (Z.rem n 2 =? 0)%Z then 1 else -1)) (Rpow (- x) (IZR n)).
Proof.
  intros H. unfold Rpow. rewrite Rcompare_Lt, Rcompare_Gt by lra. rewrite Ztrunc_IZR, Req_bool_true by reflexivity. cbn. f_equal.
  rewrite <- powerRZ_m1, <- powerRZ_Rpower by lra. rewrite <- powerRZ_mult. f_equal. ring.
Qed.
Lemma aneg_ok dbg x a b : spans x (XFin a) (XFin b) -> exists nx, aneg dbg x = Ret nx /\ spans nx (XFin (- b)) (XFin (- a)).
Proof.
  intros H. pose proof (spans_sc _ _ _ H) as K. pose proof H as (_ & _ & L). apply real_le in L. destruct x as [v|X]; cbn [aneg].
  - destruct K as [-> E]. injection E as <-. cbn. eexists. split; [reflexivity|]. repeat split. apply real_le. lra.
  - destruct K as (E1 & E2 & P). unfold ineg. rewrite (dbg_assigned RO) by auto. cbn [bind n_neg real_num]. rewrite E1, E2. cbn [xopp]. rewrite real_mk by lra. cbn [bind].
    eexists. split; [reflexivity|]. repeat split. apply real_le. lra.
Qed.
Lemma asign_ok dbg (t : R) (e : arg real_num) : t = 1 \/ t = -1 -> aproper e -> exists f, asign dbg (XFin t : real_num) e = Ret f /\ aproper f /\ forall v, ael e v -> ael f (xmul (XFin t) v : real_num).
Proof.
  intros Ht P. destruct e as [v|E]; cbn [asign].
  - cbn [n_mul real_num bind]. eexists. split; [reflexivity|]. unfold aproper, ael in *. cbn [alower aupper o_le n_ord real_num] in *. destruct Ht as [-> | ->].
    + rewrite xmul_one. split; [exact P|]. intros w. now rewrite xmul_one.
    + rewrite xmul_mone. split; [apply xopp_anti; auto|]. intros w [A B]. rewrite xmul_mone. split; apply xopp_anti; auto.
  - unfold imul. cbn [aassigned andb]. rewrite (proper_assigned RO E P). replace (expects_debug dbg true) with (Ret tt) by (now destruct dbg). cbn [bind alower aupper].
    replace (acontains (Sc (XFin t : real_num)) n_zero) with false.
    2:{ cbn [acontains]. destruct (@o_eq real_num (XFin t) n_zero) eqn:Q; auto. apply real_eq in Q. lra. }
    replace (is_ninf (XFin t : real_num)) with false by reflexivity.
    replace (is_pinf (XFin t : real_num)) with false by reflexivity.
    cbn [orb andb n_float n_mul real_num bind].
    destruct (xle_ok _ _ P) as [P1 P2]. cbn [alower aupper] in P1, P2. apply xok_iff in P1, P2.
    assert (NN : forall v, v <> XNan -> xmul (XFin t) v <> XNan) by (intros v Hv; destruct Ht as [-> | ->]; [rewrite xmul_one; auto|rewrite xmul_mone; destruct v; cbn; congruence]).
    destruct (hull2_spec real_laws (xmul (XFin t) (lo E)) (xmul (XFin t) (hi E)) (real_okx _ (NN _ P1)) (real_okx _ (NN _ P2))) as (Z & -> & _ & _ & HB). cbn [bind].
    assert (C : forall v, el E v -> el Z (xmul (XFin t) v)).
    { intros v [A B]. apply HB. destruct Ht as [-> | ->]; rewrite ?xmul_one, ?xmul_mone; [left; auto|right]. split; apply xopp_anti; auto. }
    eexists. split; [reflexivity|]. split; [|exact C]. apply (ael_proper' (Iv Z) (xmul (XFin t) (lo E))). apply C. split; [now apply xle_refl|exact P].
Qed.
Lemma in_range_long n : in_range 64 n = true <-> (- 2 ^ 63 <= n < 2 ^ 63)%Z.
Proof. unfold in_range, int_min, int_max. rewrite andb_true_iff, !Z.leb_le. lia. Qed.

Lemma real_pow_neg dbg x y a b n : bounds x a b -> a < 0 -> bounds y (IZR n) (IZR n) -> (- 2 ^ 63 <= n < 2 ^ 63)%Z ->
  exists Z, ipow real_math dbg x y = Ret Z /\ forall r, a <= r <= b -> el Z (Rpow r (IZR n) : real_num).
Proof.
  intros Bx H0 By Hn. pose proof Bx as (_ & _ & Lx).
  pose proof (proj1 (bounds_spans _ _ _) Bx) as Hx. pose proof (proj1 (bounds_spans _ _ _) By) as Hy.
  rewrite (ipow_unfold dbg x y a b Hx (spans_aproper _ _ _ Hy)). rewrite (Rlt_bool_true a 0) by lra.
  assert (Neg : forall R : ivl real_num, exists f,
    (yi <- m_trunc real_math (alower y) ;;
     if o_eq (alower y) (aupper y) && o_eq (m_of_Z real_math yi) (alower y) then
       nx <- aneg dbg x ;; e <- epow dbg nx (Sc (alower y)) ;;
       e <- asign dbg (if Z.rem yi 2 =? 0 then n_one else n_mone)%Z e ;; aassign R e
     else nan_interval) = aassign R f /\ aproper f /\ (forall r, a <= r <= b -> r < 0 -> ael f (Rpow r (IZR n) : real_num))).
  { intros R. pose proof Hy as (Y1 & Y2 & _). rewrite Y1, Y2. cbn [m_trunc real_math]. rewrite Ztrunc_IZR, (proj2 (in_range_long n) Hn). cbn [bind m_of_Z real_math].
    replace (@o_eq real_num (XFin (IZR n)) (XFin (IZR n))) with true by (symmetry; now apply real_eq). cbn [andb].
    destruct (aneg_ok dbg x a b Hx) as (nx & -> & Hnx). cbn [bind].
    assert (Hs : spans (Sc (XFin (IZR n) : real_num)) (XFin (IZR n)) (XFin (IZR n))) by (split; [reflexivity|split; [reflexivity|apply real_le; lra]]).
    destruct (epow_ok dbg nx _ _ _ _ _ Hnx Hs) as (e & -> & Pe & He & _). cbn [bind].
    set (t := if (Z.rem n 2 =? 0)%Z then 1 else -1). replace (if (Z.rem n 2 =? 0)%Z then @n_one real_num else n_mone) with (XFin t : real_num) by (unfold t; destruct (Z.rem n 2 =? 0)%Z; reflexivity).
    assert (Ht : t = 1 \/ t = -1) by (unfold t; destruct (Z.rem n 2 =? 0)%Z; auto).
    destruct (asign_ok dbg t e Ht Pe) as (f & -> & Pf & Hf). cbn [bind]. exists f. split; [reflexivity|]. split; [exact Pf|].
    intros r Hr R0. rewrite (Rpow_neg r n R0). apply Hf. apply He; [|lra]. pose proof (Rmax_r 0 (- a)).
    split; [apply Rmax_lub; lra|lra]. }
  destruct (Rle_bool_spec 0 b) as [Hb|Hb].
  - destruct (epow_ok dbg x y _ _ _ _ Hx Hy) as (e & -> & Pe & He & _). cbn [bind]. rewrite aassign_default by auto. cbn [bind].
    destruct (Neg (Ivl (alower e) (aupper e))) as (f & -> & Pf & Hf). destruct (aassign_more (Ivl (alower e) (aupper e)) f Pe Pf) as (Z & -> & HZ).
    exists Z. split; [reflexivity|]. intros r Hr. apply HZ. destruct (Rlt_or_le r 0) as [K|K]; [right; now apply Hf|left].
    apply (He r (IZR n)); [|lra]. rewrite (Rmax_right 0 b) by lra. split; [apply Rmax_lub; lra|lra].
  - cbn [bind]. destruct (Neg ivl_default) as (f & -> & Pf & Hf). rewrite aassign_default by auto. eexists. split; [reflexivity|].
    intros r Hr. apply (Hf r Hr). lra.
Qed.
(** negative bases with an exponent that is not an integer number: NaN, unless the conversion of the exponent to long long is undefined *)
Lemma real_pow_nan dbg x y a b c d : bounds x a b -> a < 0 -> bounds y c d -> (c <> d \/ forall n : Z, c <> IZR n) -> (- 2 ^ 63 <= Ztrunc c < 2 ^ 63)%Z ->
  exists Z, ipow real_math dbg x y = Ret Z /\ nan_ivl Z.
Proof.
  intros Bx H0 By Hc Ht. pose proof (proj1 (bounds_spans _ _ _) Bx) as Hx. pose proof (proj1 (bounds_spans _ _ _) By) as Hy.
  rewrite (ipow_unfold dbg x y a b Hx (spans_aproper _ _ _ Hy)). rewrite (Rlt_bool_true a 0) by lra.
  assert (R : exists R, (if Rle_bool 0 b then e <- epow dbg x y ;; aassign ivl_default e else Ret (@ivl_default real_num)) = Ret R).
  { destruct (Rle_bool 0 b); [|eauto]. destruct (epow_ok dbg x y _ _ _ _ Hx Hy) as (e & -> & Pe & _). cbn [bind]. rewrite aassign_default by auto. eauto. }
  destruct R as (R & ->). cbn [bind]. pose proof Hy as (Y1 & Y2 & _). rewrite Y1, Y2. cbn [m_trunc real_math]. rewrite (proj2 (in_range_long _) Ht). cbn [bind m_of_Z real_math].
  replace (@o_eq real_num (XFin c) (XFin d) && @o_eq real_num (XFin (IZR (Ztrunc c))) (XFin c)) with false.
  - eexists. split; [reflexivity|]. split; reflexivity.
  - symmetry. apply andb_false_iff. destruct Hc as [Hc|Hc]; [left|right]; destruct o_eq eqn:E; auto; apply real_eq in E; [tauto|]. exfalso. apply (Hc (Ztrunc c)). auto.
Qed.
Lemma real_pow_ub dbg x y a b c d : bounds x a b -> a < 0 -> bounds y c d -> ~ (- 2 ^ 63 <= Ztrunc c < 2 ^ 63)%Z -> ipow real_math dbg x y = UB.
Proof.
  intros Bx H0 By Ht. pose proof (proj1 (bounds_spans _ _ _) Bx) as Hx. pose proof (proj1 (bounds_spans _ _ _) By) as Hy.
  rewrite (ipow_unfold dbg x y a b Hx (spans_aproper _ _ _ Hy)). rewrite (Rlt_bool_true a 0) by lra.
  assert (R : exists R, (if Rle_bool 0 b then e <- epow dbg x y ;; aassign ivl_default e else Ret (@ivl_default real_num)) = Ret R).
  { destruct (Rle_bool 0 b); [|eauto]. destruct (epow_ok dbg x y _ _ _ _ Hx Hy) as (e & -> & Pe & _). cbn [bind]. rewrite aassign_default by auto. eauto. }
  destruct R as (R & ->). cbn [bind]. pose proof Hy as (Y1 & Y2 & _). rewrite Y1. cbn [m_trunc real_math].
  destruct (in_range 64 (Ztrunc c)) eqn:E; [|reflexivity]. exfalso. apply Ht. now apply in_range_long.
Qed.
