(** pow of intervals of machine numbers: the hull of exp(y log x) as computed (interval.hpp 482-526, 1057-1090). *)
From Coq Require Import Reals ZArith Bool Lra Lia.
From Flocq Require Import Core.
From Verif Require Import Outcome SetModel Spec SetProofs Num NumLaws IntervalModel IvlSpec IvlProofs ArithProofs IntNum XReal RealNum
  MathModel RealMath MathSpec MathProofs MonoProofs TrigProofs AlgoProofs ArithProofs2 PowProofs MachineSpec.
Open Scope R_scope.

Section Pow.
  Context {N : num} {rd : R -> xr} {phi : N -> xr} (D : denotes N rd phi) (M : math N).
  Let HO := denotes_ord D.
  Let HN := denotes_laws D.
  Implicit Types (x y a l e : arg N) (u v w z : N).
  Notation "u <== v" := (xle u v = true) (at level 70).

  Lemma xle_antisym p q : p <== q -> q <== p -> p = q.
  Proof. destruct p, q; cbn; intros A B; try discriminate; auto. destruct (Rle_bool_spec r r0), (Rle_bool_spec r0 r); try discriminate. f_equal; lra. Qed.
  Lemma le_phi u v : o_le u v = true <-> phi u <== phi v. Proof. now rewrite (d_le _ _ _ D). Qed.
  Lemma increasing_phi (P : N -> Prop) f u v : increasing P f -> P u -> P v -> phi u = phi v -> phi u <> XNan -> phi (f u) = phi (f v).
  Proof.
    intros H Pu Pv E K. apply xle_antisym; apply le_phi, H; auto; apply le_phi; rewrite E in *; now apply xle_refl.
  Qed.
  Lemma round_number p : p <> XNan -> xround rd p <> XNan.
  Proof. intros H K. apply H. now apply (xround_nan D). Qed.

  Lemma mul0_phi v w s : phi v = XFin s -> phi w <> XNan -> exists z, @mul0 N v w = Ret z /\ phi z = xround rd (xm s (phi w)).
  Proof.
    intros Ev Hw. unfold mul0. destruct (d_mul _ _ _ D v w) as (r & -> & Er). cbn [bind]. eexists. split; [reflexivity|].
    assert (NB : nan_b r = true <-> phi r = XNan).
    { unfold nan_b. rewrite negb_true_iff. rewrite (d_eq _ _ _ D). destruct (xeq (phi r) (phi r)) eqn:Q; split; intros K; try discriminate; auto.
      - apply (xeq_iff) in Q. tauto.
      - destruct (phi r) eqn:P; auto; exfalso; assert (xeq (phi r) (phi r) = true) as Q' by (apply xeq_iff; rewrite P; split; [auto|discriminate]); rewrite P in *; congruence. }
    assert (VI : inf_b v = false).
    { unfold inf_b. apply orb_false_iff. split; apply not_true_is_false; intros K; [apply (ninf_phi D) in K|apply (pinf_phi D) in K]; congruence. }
    assert (V0 : o_eq v n_zero = Req_bool s 0).
    { apply eq_iff_eq_true. change (o_eq v n_zero = true) with (is_zero v). rewrite (zero_phi D), Ev. split; [intros K; injection K as ->; now apply Req_bool_true|].
      destruct (Req_bool_spec s 0); [now subst|discriminate]. }
    assert (WI : inf_b w = true <-> phi w = XNinf \/ phi w = XPinf).
    { unfold inf_b. rewrite orb_true_iff, (ninf_phi D), (pinf_phi D). reflexivity. }
    rewrite VI, V0. cbn [andb orb]. unfold xm. rewrite Ev in Er. destruct (Req_bool_spec s 0) as [E|E].
    - subst s. rewrite andb_true_r. cbn [xround]. rewrite (d_rd_0 _ _ _ D). destruct (phi w) as [| |t|] eqn:Pw; [congruence| | |].
      + rewrite (proj2 NB); [rewrite (proj2 WI) by auto; apply (d_zero _ _ _ D)|]. rewrite Er. cbn. unfold xsinf. now rewrite Rcompare_Eq by lra.
      + replace (nan_b r) with false; [cbn [andb]; rewrite Er; cbn; now rewrite Rmult_0_l, (d_rd_0 _ _ _ D)|]. symmetry. apply not_true_is_false. intros K. apply NB in K. rewrite Er in K. cbn in K. now apply (rd_ok D) in K.
      + rewrite (proj2 NB); [rewrite (proj2 WI) by auto; apply (d_zero _ _ _ D)|]. rewrite Er. cbn. unfold xsinf. now rewrite Rcompare_Eq by lra.
    - now rewrite !andb_false_r.
  Qed.

  Lemma zero_ok : o_le n_zero (n_zero : N) = true.
  Proof. apply le_phi. rewrite (d_zero _ _ _ D). apply xle_refl. discriminate. Qed.
  Lemma amax0_phi dbg x : aproper x -> exists m, amax0 dbg x = Ret m /\ aproper m /\ nonneg (alower m)
    /\ (forall v, ael x v -> nonneg v -> ael m v) /\ (nonneg (alower x) -> forall v, ael m v -> ael x v).
  Proof.
    intros P. pose proof zero_ok as Z0. destruct (ol_ok _ HO _ _ P) as [Pl Pu].
    assert (T0 : forall v, ok v -> o_le n_zero (omax n_zero v) = true) by (intros v Hv; now apply (omax_l HO)).
    assert (T1 : forall v, ok v -> o_le v (omax n_zero v) = true) by (intros v Hv; now apply (omax_r HO)).
    assert (T : forall v w, ok v -> o_le v w = true -> o_le (omax n_zero v) (omax n_zero w) = true).
    { intros v w Hv Hw. assert (ok w) as Kw by (apply (ol_ok _ HO) in Hw; tauto). apply omax_lub; auto. apply (ol_trans _ HO) with w; auto. }
    assert (I : forall v : N, o_le n_zero v = true -> o_le (omax n_zero v) v = true) by (intros v Hv; apply omax_lub; auto; apply (ol_ok _ HO) in Hv; tauto).
    assert (C1 : forall v, ael x v -> nonneg v -> o_le (omax n_zero (alower x)) v = true /\ o_le v (omax n_zero (aupper x)) = true).
    { intros v [V1 V2] Nv. split; [apply omax_lub; auto|]. apply (ol_trans _ HO) with (aupper x); auto. }
    assert (C2 : nonneg (alower x) -> forall v, o_le (omax n_zero (alower x)) v = true -> o_le v (omax n_zero (aupper x)) = true -> ael x v).
    { intros Hx v V1 V2. assert (o_le n_zero (aupper x) = true) by (apply (ol_trans _ HO) with (alower x); auto).
      split; [apply (ol_trans _ HO) with (omax n_zero (alower x)); auto|apply (ol_trans _ HO) with (omax n_zero (aupper x)); auto]. }
    destruct x as [v|X]; cbn [amax0 alower aupper] in *.
    - eexists. split; [reflexivity|]. unfold aproper, nonneg, ael. cbn [alower aupper]. split; [now apply T|]. split; [now apply T0|]. split; [exact C1|].
      intros Hx u [V1 V2]. apply C2; auto.
    - unfold imax. cbn [aassigned alower aupper andb]. rewrite (proper_assigned HO X P). replace (expects_debug dbg true) with (Ret tt) by (now destruct dbg).
      cbn [bind]. rewrite (mk_proper HO) by (apply T; auto). cbn [bind]. eexists. split; [reflexivity|]. unfold aproper, nonneg, ael. cbn [alower aupper lo hi].
      split; [now apply T|]. split; [now apply T0|]. split; [exact C1|]. intros Hx u [V1 V2]. apply C2; auto.
  Qed.
  Lemma alog_phi dbg m : increasing nonneg (m_log M) -> aproper m -> nonneg (alower m) ->
    exists l, alog M dbg m = Ret l /\ alower l = m_log M (alower m) /\ aupper l = m_log M (aupper m).
  Proof.
    intros I P H. assert (H' : o_le n_zero (aupper m) = true) by (unfold aproper, nonneg in *; clear - HO P H; ord HO).
    unfold nonneg in H. destruct m as [v|X]; cbn [alog alower aupper] in *.
    - unfold slog. rewrite H. replace (expects_debug dbg true) with (Ret tt) by (now destruct dbg). cbn [bind]. eexists. split; [reflexivity|]. auto.
    - unfold ilog. rewrite (dbg_assigned HO) by auto. cbn [bind]. unfold slog. rewrite H, H'. replace (expects_debug dbg true) with (Ret tt) by (now destruct dbg). cbn [bind].
      rewrite (mk_proper HO) by (apply I; auto). cbn [bind]. eexists. split; [reflexivity|]. auto.
  Qed.
  Lemma aexp_phi dbg e : increasing anywhere (m_exp M) -> aproper e -> exists f, aexp M dbg e = Ret f /\ alower f = m_exp M (alower e) /\ aupper f = m_exp M (aupper e).
  Proof.
    intros I P. destruct e as [v|X]; cbn [aexp].
    - unfold sexp. cbn [bind]. eexists. split; [reflexivity|]. auto.
    - unfold iexp. rewrite (dbg_assigned HO) by exact P. cbn [bind]. unfold sexp. cbn [bind]. rewrite (mk_proper HO) by (apply I; unfold anywhere; auto). cbn [bind].
      eexists. split; [reflexivity|]. auto.
  Qed.

  Lemma between_phi z (p q : N) (x1 x2 x3 : xr) : phi z = xround rd x1 -> phi p = xround rd x2 -> phi q = xround rd x3 -> @between real_num x1 x2 x3 -> between z p q.
  Proof.
    intros E1 E2 E3 H. unfold between in *. rewrite !le_phi, E1, E2, E3.
    assert (K : forall s t : real_num, o_le s t = true -> xround rd s <== xround rd t).
    { intros s t L. change (s <== t) in L. destruct (xle_ok _ _ L) as [A B]. apply (xround_mono D); auto; now apply xok_iff. }
    destruct H as [[A B]|[A B]]; [left|right]; split; auto.
  Qed.
  Lemma amul0_phi y l c d : phi (alower y) = XFin c -> phi (aupper y) = XFin d -> aproper y -> aproper l -> exists e, amul0 y l = Ret e /\ aproper e /\
    (forall z s w, c <= s <= d -> ael l w -> phi z = xround rd (xm s (phi w)) -> ael e z) /\
    (exists v w, (v = alower y \/ v = aupper y) /\ (w = alower l \/ w = aupper l) /\ mul0 v w = Ret (alower e)) /\
    (exists v w, (v = alower y \/ v = aupper y) /\ (w = alower l \/ w = aupper l) /\ mul0 v w = Ret (aupper e)).
  Proof.
    intros Ec Ed Py Pl. unfold aproper in Pl. pose proof Py as Py'. unfold aproper in Py'. rewrite le_phi, Ec, Ed in Py'. apply real_le in Py'.
    assert (Nl : phi (alower l) <> XNan /\ phi (aupper l) <> XNan).
    { apply le_phi in Pl. destruct (xle_ok _ _ Pl) as [A B]. split; now apply xok_iff. }
    destruct Nl as [Nl Nu].
    assert (OK : forall z s w, phi z = xround rd (xm s (phi w)) -> phi w <> XNan -> ok z) by (intros z s w E K; apply (ok_phi D); rewrite E; now apply round_number, xm_number).
    assert (B1 : forall (z p q : N) s (w : N), ael l w -> phi z = xround rd (xm s (phi w)) -> phi p = xround rd (xm s (phi (alower l))) -> phi q = xround rd (xm s (phi (aupper l))) -> between z p q).
    { intros z p q s w [W1 W2] E1 E2 E3. eapply between_phi; eauto. apply xm_between_w; now apply le_phi. }
    assert (B2 : forall (z p q : N) s (w : N), phi w <> XNan -> c <= s <= d -> phi z = xround rd (xm s (phi w)) -> phi p = xround rd (xm c (phi w)) -> phi q = xround rd (xm d (phi w)) -> between z p q).
    { intros z p q s w Hw Hs E1 E2 E3. eapply between_phi; eauto. now apply xm_between_s. }
    assert (NW : forall w, ael l w -> phi w <> XNan).
    { intros w [W _]. apply le_phi in W. apply xle_ok in W as [_ W]. now apply xok_iff. }
    destruct (mul0_phi _ _ _ Ec Nl) as (z1 & M1 & E1). destruct (mul0_phi _ _ _ Ec Nu) as (z2 & M2 & E2).
    destruct (mul0_phi _ _ _ Ed Nl) as (z3 & M3 & E3). destruct (mul0_phi _ _ _ Ed Nu) as (z4 & M4 & E4).
    assert (SC : forall z p : N, between z p p -> o_le p z = true /\ o_le z p = true) by (intros z p [[? ?]|[? ?]]; auto).
    destruct y as [v|Y], l as [w0|L]; cbn [amul0 alower aupper] in *.
    - rewrite M1. cbn [bind]. eexists. split; [reflexivity|]. split; [apply (OK _ _ _ E1 Nl)|]. split; [|split; exists v, w0; auto].
      intros z s w Hs Hw Ez. assert (s = c) as -> by (rewrite Ec in Ed; injection Ed as <-; lra). apply SC. eapply B1; eauto.
    - rewrite M1, M2. cbn [bind]. destruct (hull2_spec HN z1 z2 (OK _ _ _ E1 Nl) (OK _ _ _ E2 Nu)) as (Z & -> & HL & HU & HB). cbn [bind]. eexists. split; [reflexivity|].
      assert (A : forall z s w, c <= s <= d -> el L w -> phi z = xround rd (xm s (phi w)) -> ael (Iv Z) z).
      { intros z s w Hs Hw Ez. assert (s = c) as -> by (rewrite Ec in Ed; injection Ed as <-; lra). apply HB. eapply B1; eauto. }
      split; [|split; [exact A|split]].
      + apply (ael_aproper HO _ z1), (A z1 c (lo L)); [lra|apply (ael_lower HO (Iv L)); exact Pl|exact E1].
      + cbn [alower]. destruct HL as [ -> | -> ]; eauto 7.
      + cbn [aupper]. destruct HU as [ -> | -> ]; eauto 7.
    - rewrite M1, M3. cbn [bind]. destruct (hull2_spec HN z1 z3 (OK _ _ _ E1 Nl) (OK _ _ _ E3 Nl)) as (Z & -> & HL & HU & HB). cbn [bind]. eexists. split; [reflexivity|].
      assert (A : forall z s w, c <= s <= d -> ael (Sc w0) w -> phi z = xround rd (xm s (phi w)) -> ael (Iv Z) z).
      { intros z s w Hs [W1 W2] Ez. apply HB. assert (phi w = phi w0) as Ew by (apply xle_antisym; now apply le_phi). rewrite Ew in Ez. eapply B2; eauto. }
      split; [|split; [exact A|split]].
      + apply (ael_aproper HO _ z1), (A z1 c w0); [lra|now split|exact E1].
      + cbn [alower]. destruct HL as [ -> | -> ]; eauto 7.
      + cbn [aupper]. destruct HU as [ -> | -> ]; eauto 7.
    - rewrite M1, M2, M3, M4. cbn [bind].
      destruct (hull4_spec HN z1 z2 z3 z4 (OK _ _ _ E1 Nl) (OK _ _ _ E2 Nu) (OK _ _ _ E3 Nl) (OK _ _ _ E4 Nu)) as (Z & -> & HL & HU & HB). cbn [bind]. eexists. split; [reflexivity|].
      assert (A : forall z s w, c <= s <= d -> el L w -> phi z = xround rd (xm s (phi w)) -> ael (Iv Z) z).
      { intros z s w Hs Hw Ez. pose proof (NW w Hw) as Nw. destruct (mul0_phi _ w _ Ec Nw) as (p & _ & Ep). destruct (mul0_phi _ w _ Ed Nw) as (q & _ & Eq).
        apply (HB z p q); [eapply B1; eauto|eapply B1; eauto|eapply B2; eauto]. }
      split; [|split; [exact A|split]].
      + apply (ael_aproper HO _ z1), (A z1 c (lo L)); [lra|apply (ael_lower HO (Iv L)); exact Pl|exact E1].
      + cbn [alower]. destruct HL as [ -> |[ -> |[ -> | -> ]]]; eauto 7.
      + cbn [aupper]. destruct HU as [ -> |[ -> |[ -> | -> ]]]; eauto 7.
  Qed.

  Lemma aassign_default_phi e : aproper e -> exists Z, aassign (@ivl_default N) e = Ret Z /\ phi (lo Z) = phi (alower e) /\ phi (hi Z) = phi (aupper e).
  Proof.
    intros P. assert (T : forall v, ok v -> phi (omin n_top v) = phi v).
    { intros v Hv. unfold omin. destruct (o_lt v n_top) eqn:E; [reflexivity|]. rewrite (d_lt _ _ _ D), (d_top _ _ _ D) in E. rewrite (d_top _ _ _ D).
      apply (ok_phi D) in Hv. destruct (phi v); try congruence; discriminate E. }
    assert (B : forall v, ok v -> phi (omax n_bot v) = phi v).
    { intros v Hv. unfold omax. destruct (o_lt n_bot v) eqn:E; [reflexivity|]. rewrite (d_lt _ _ _ D), (d_bot _ _ _ D) in E. rewrite (d_bot _ _ _ D).
      apply (ok_phi D) in Hv. destruct (phi v); try congruence; discriminate E. }
    pose proof P as Q. unfold aproper in Q. destruct (ol_ok _ HO _ _ Q) as [Q1 Q2]. destruct e as [v|X]; cbn [aassign alower aupper] in *.
    - eexists. split; [reflexivity|]. unfold iassign_value, assign_bounds. cbn [lo hi ivl_default]. auto.
    - unfold iassign. rewrite (proper_assigned HO X P). cbn [expects bind]. eexists. split; [reflexivity|]. unfold assign_bounds. cbn [lo hi ivl_default]. auto.
  Qed.
  Lemma possibly_nonneg_gen dbg x : aproper x -> possibly_nonneg dbg x = Ret (o_le n_zero (aupper x)).
  Proof.
    intros P. pose proof zero_ok as Z0. destruct x as [v|X]; cbn [possibly_nonneg aupper] in *; [reflexivity|].
    unfold rel_geq. rewrite (rel_pre_ok HO dbg (Iv X) (Sc n_zero)) by auto. cbn [bind]. f_equal. apply eq_iff_eq_true. rewrite possibly_iff.
    destruct (compare_leq_exact HO (Sc (n_zero : N)) (Iv X) Z0 P) as [_ Q]. rewrite (Q true). split.
    - intros (u & w & [U1 U2] & [W1 W2] & E). cbn in *. clear - HO U1 E W2. ord HO.
    - intros H. exists n_zero, (hi X). split; [now split|]. split; [apply (ael_upper HO (Iv X)); exact P|exact H].
  Qed.
  Lemma possibly_neg_gen dbg x : aproper x -> possibly_neg dbg x = Ret (o_lt (alower x) n_zero).
  Proof.
    intros P. pose proof zero_ok as Z0. destruct x as [v|X]; cbn [possibly_neg alower] in *; [reflexivity|].
    unfold rel_lt. rewrite (rel_pre_ok HO dbg (Iv X) (Sc n_zero)) by auto. cbn [bind]. f_equal. apply eq_iff_eq_true. rewrite possibly_iff.
    destruct (compare_lt_exact HO (Iv X) (Sc (n_zero : N)) P Z0) as [_ Q]. rewrite (Q true). split.
    - intros (w & u & [W1 W2] & [U1 U2] & E). cbn in *. clear - HO U2 E W1. ord HO.
    - intros H. exists (lo X), n_zero. split; [apply (ael_lower HO (Iv X)); exact P|]. split; [now split|exact H].
  Qed.

  (** exp(y log x) at numbers *)
  Lemma formula_phi v w s : phi w = XFin s -> phi (m_log M v) <> XNan -> exists e z : N, pow_formula M v w = Ret (m_exp M e) /\ phi e = xround rd (xm s (phi (m_log M v))) /\ mul0 w (m_log M v) = Ret z /\ phi z = phi e.
  Proof.
    intros Ew Hl. destruct (mul0_phi w (m_log M v) s Ew Hl) as (z & Mz & Ez). unfold pow_formula.
    destruct (o_eq w n_zero) eqn:E0; cbn [bind].
    - exists n_zero, z. split; [reflexivity|]. assert (s = 0) as ->. { apply (zero_phi D) in E0. rewrite Ew in E0. now injection E0. }
      assert (phi n_zero = xround rd (xm 0 (phi (m_log M v)))) as K. { unfold xm. rewrite Req_bool_true by reflexivity. cbn. now rewrite (d_zero _ _ _ D), (d_rd_0 _ _ _ D). }
      split; [exact K|]. split; [exact Mz|congruence].
    - destruct (d_mul _ _ _ D w (m_log M v)) as (e & -> & Ee). cbn [bind]. exists e, z. split; [reflexivity|].
      assert (s <> 0). { intros ->. assert (is_zero w) as K by (apply (zero_phi D); exact Ew). unfold is_zero in K. congruence. }
      assert (phi e = xround rd (xm s (phi (m_log M v)))) as K. { rewrite Ee, Ew. unfold xm. now rewrite Req_bool_false by auto. }
      split; [exact K|]. split; [exact Mz|congruence].
  Qed.

  (** exp(y *0 log x) *)
  Lemma epow_phi dbg x y : increasing nonneg (m_log M) -> increasing anywhere (m_exp M) -> aproper x -> nonneg (alower x) -> aproper y -> finite (alower y) -> finite (aupper y) ->
    exists e, (l <- alog M dbg x ;; e <- amul0 y l ;; aexp M dbg e) = Ret e /\ aproper e
      /\ (forall v w, ael x v -> ael y w -> exists z, pow_formula M v w = Ret z /\ ael e z)
      /\ (exists v w z, ael x v /\ ael y w /\ pow_formula M v w = Ret z /\ phi z = phi (alower e))
      /\ (exists v w z, ael x v /\ ael y w /\ pow_formula M v w = Ret z /\ phi z = phi (aupper e)).
  Proof.
    intros IL IE Px Hx Py Fl Fu.
    assert (FIN : forall v, finite v -> exists s, phi v = XFin s).
    { intros v [F1 F2]. rewrite (nan_not_ok HO), (ok_phi D) in F1. rewrite (infinite_phi D) in F2. destruct (phi v) as [| |s|]; [|tauto|eauto|tauto].
      exfalso. apply F1. intros K. now apply K. }
    destruct (FIN _ Fl) as (c & Ec), (FIN _ Fu) as (d & Ed).
    assert (Hxu : nonneg (aupper x)) by (unfold aproper, nonneg in *; clear - HO Px Hx; ord HO).
    destruct (alog_phi dbg x IL Px Hx) as (l & -> & Ll & Lu). cbn [bind].
    assert (El : phi (alower l) = phi (m_log M (alower x))) by now rewrite Ll.
    assert (Eu : phi (aupper l) = phi (m_log M (aupper x))) by now rewrite Lu.
    assert (Pl : aproper l) by (apply le_phi; rewrite El, Eu; apply le_phi, IL; auto).
    destruct (amul0_phi y l c d Ec Ed Py Pl) as (e & -> & Pe & A & (v1 & w1 & V1 & W1 & M1) & (v2 & w2 & V2 & W2 & M2)). cbn [bind].
    destruct (aexp_phi dbg e IE Pe) as (f & -> & Fl' & Fu').
    assert (LOG : forall v, ael x v -> ael l (m_log M v)).
    { intros v [X1 X2]. assert (nonneg v) by (unfold nonneg in *; clear - HO Hx X1; ord HO).
      split; apply le_phi; [rewrite El|rewrite Eu]; apply le_phi, IL; auto. }
    assert (LN : forall v, ael x v -> phi (m_log M v) <> XNan).
    { intros v Hv. destruct (LOG v Hv) as [K _]. apply le_phi, xle_ok in K as [_ K]. now apply xok_iff. }
    assert (YF : forall w, ael y w -> exists s, phi w = XFin s /\ c <= s <= d).
    { intros w [Y1 Y2]. apply le_phi in Y1, Y2. rewrite Ec in Y1. rewrite Ed in Y2. destruct (phi w) as [| |s|]; try discriminate. exists s. split; [reflexivity|]. split; now apply real_le. }
    assert (CORNER : forall v w z, (v = alower y \/ v = aupper y) -> (w = alower l \/ w = aupper l) -> mul0 v w = Ret z ->
      exists b r, ael x b /\ ael y v /\ pow_formula M b v = Ret r /\ phi r = phi (m_exp M z)).
    { intros v w z Hv Hw Mz. assert (Yv : ael y v) by (destruct Hv as [ -> | -> ]; [apply (ael_lower HO)|apply (ael_upper HO)]; exact Py).
      destruct (YF v Yv) as (s & Es & _).
      assert (exists b, ael x b /\ phi w = phi (m_log M b)) as (b & Xb & Eb).
      { destruct Hw as [ -> | -> ]; [exists (alower x)|exists (aupper x)]; (split; [|assumption]); [apply (ael_lower HO)|apply (ael_upper HO)]; exact Px. }
      destruct (formula_phi b v s Es (LN b Xb)) as (e' & z' & F & Ee & Mz' & Ez'). exists b, (m_exp M e'). split; [exact Xb|]. split; [exact Yv|]. split; [exact F|].
      assert (Nw : phi w <> XNan) by (rewrite Eb; auto).
      destruct (mul0_phi v w s Es Nw) as (z0 & Mz0 & Ez0). rewrite Mz in Mz0. injection Mz0 as <-.
      apply (increasing_phi anywhere); unfold anywhere; auto; [rewrite Ee, Ez0, Eb; reflexivity|]. rewrite Ee. apply round_number, xm_number; auto. }
    exists f. split; [reflexivity|]. split; [unfold aproper; rewrite Fl', Fu'; apply IE; unfold anywhere; auto|]. split; [|split].
    - intros v w Hv Hw. destruct (YF w Hw) as (s & Es & Hs). destruct (formula_phi v w s Es (LN v Hv)) as (e' & z' & F & Ee & _). exists (m_exp M e'). split; [exact F|].
      destruct (A e' s (m_log M v) Hs (LOG v Hv) Ee) as [B1 B2]. split; [rewrite Fl'|rewrite Fu']; apply IE; unfold anywhere; auto.
    - destruct (CORNER _ _ _ V1 W1 M1) as (b & r & X1 & Y1 & F & E). exists b, v1, r. rewrite Fl'. auto.
    - destruct (CORNER _ _ _ V2 W2 M2) as (b & r & X1 & Y1 & F & E). exists b, v2, r. rewrite Fu'. auto.
  Qed.

  Lemma pow_code {B : Type} dbg x y (f : arg N -> outcome B) :
    (m <- amax0 dbg x ;; l <- alog M dbg m ;; e <- amul0 y l ;; e <- aexp M dbg e ;; f e) = (m <- amax0 dbg x ;; e <- (l <- alog M dbg m ;; e <- amul0 y l ;; aexp M dbg e) ;; f e).
  Proof.
    destruct (amax0 dbg x) as [m| | | |]; cbn [bind]; try reflexivity. destruct (alog M dbg m) as [l| | | |]; cbn [bind]; try reflexivity. destruct (amul0 y l) as [e| | | |]; cbn [bind]; reflexivity.
  Qed.
  Theorem pow_nonneg_machine dbg x y : increasing nonneg (m_log M) -> increasing anywhere (m_exp M) -> aproper x -> nonneg (alower x) -> aproper y ->
    finite (alower y) -> finite (aupper y) -> exists Z, ipow M dbg x y = Ret Z /\ is_hull (img2 (pow_formula M) x y) Z.
  Proof.
    intros IL IE Px Hx Py Fl Fu. destruct (amax0_phi dbg x Px) as (m & Em & Pm & Nm & C1 & C2). specialize (C2 Hx).
    assert (C1' : forall v, ael x v -> ael m v). { intros v Hv. apply C1; auto. destruct Hv as [Hv _]. apply (ol_trans _ HO) with (alower x); auto. }
    destruct (epow_phi dbg m y IL IE Pm Nm Py Fl Fu) as (e & E & Pe & A & (v1 & w1 & z1 & X1 & Y1 & F1 & G1) & (v2 & w2 & z2 & X2 & Y2 & F2 & G2)).
    destruct (aassign_default_phi e Pe) as (Z & EZ & Zl & Zu).
    exists Z. split.
    - unfold ipow. rewrite (aproper_assigned HO x Px), (aproper_assigned HO y Py). cbn [andb]. replace (expects_debug dbg true) with (Ret tt) by (now destruct dbg). cbn [bind].
      rewrite (possibly_nonneg_gen dbg x Px), (possibly_neg_gen dbg x Px).
      replace (o_le n_zero (aupper x)) with true by (symmetry; apply (ol_trans _ HO) with (alower x); auto).
      replace (o_lt (alower x) n_zero) with false by (unfold nonneg in Hx; clear - HO Hx; ord HO). cbn [bind]. rewrite pow_code, Em. cbn [bind]. rewrite E. cbn [bind]. rewrite EZ. reflexivity.
    - unfold aproper in Pe. destruct (ol_ok _ HO _ _ Pe) as [Q1 Q2]. split; [|split].
      + intros r (v & w & Xv & Yw & F). destruct (A v w (C1' v Xv) Yw) as (z & F' & B1 & B2). rewrite F in F'. injection F' as <-. split; apply le_phi; [rewrite Zl|rewrite Zu]; now apply le_phi.
      + exists z1. split; [exists v1, w1; auto|]. apply (le_phi_eq D); [congruence|]. apply (ok_phi D). rewrite G1. now apply (ok_phi D).
      + exists z2. split; [exists v2, w2; auto|]. apply (le_phi_eq D); [congruence|]. apply (ok_phi D). rewrite G2. now apply (ok_phi D).
  Qed.

  (** ** Negative bases and integer exponents *)
  Lemma aneg_phi dbg x : aproper x -> exists n, aneg dbg x = Ret n /\ phi (alower n) = xopp (phi (aupper x)) /\ phi (aupper n) = xopp (phi (alower x)) /\ aproper n.
  Proof.
    intros P. assert (XO : forall a b : xr, a <== b -> xopp b <== xopp a).
    { intros a b. destruct a, b; cbn; auto; try discriminate. intros H. destruct (Rle_bool_spec r r0); [|discriminate]. apply Rle_bool_true. lra. }
    unfold aproper in P. apply le_phi in P. apply XO in P. destruct x as [v|X]; cbn [aneg alower aupper] in *.
    - destruct (d_neg _ _ _ D v) as (z & -> & E). cbn [bind]. eexists. split; [reflexivity|]. cbn [alower aupper]. split; [exact E|]. split; [exact E|]. apply le_phi. cbn [alower aupper]. now rewrite E.
    - unfold ineg. destruct (d_neg _ _ _ D (lo X)) as (z1 & E1 & F1), (d_neg _ _ _ D (hi X)) as (z2 & E2 & F2). rewrite E1, E2, <- F1, <- F2 in *. apply le_phi in P.
      rewrite (dbg_assigned HO). 2: { apply le_phi. apply le_phi in P. rewrite F1, F2 in P. apply XO in P. destruct (phi (lo X)), (phi (hi X)); cbn in *; auto; now rewrite !Ropp_involutive in P. }
      cbn [bind]. rewrite (mk_proper HO) by exact P. cbn [bind]. eexists. split; [reflexivity|]. cbn [alower aupper lo hi]. auto.
  Qed.
  Lemma times_one u v z : phi u = XFin 1 -> n_mul u v = Ret z -> phi z = phi v.
  Proof.
    intros U E. destruct (d_mul _ _ _ D u v) as (z' & E' & F). rewrite E in E'. injection E' as <-. rewrite F, U.
    replace (xmul (XFin 1) (phi v)) with (phi v); [apply (d_rd_id _ _ _ D)|]. destruct (phi v); cbn; unfold xsinf; xcase; auto; try (exfalso; lra). f_equal. lra.
  Qed.
  Lemma times_mone u v z : phi u = XFin (-1) -> n_mul u v = Ret z -> phi z = xopp (phi v).
  Proof.
    intros U E. destruct (d_mul _ _ _ D u v) as (z' & E' & F). rewrite E in E'. injection E' as <-. destruct (d_neg _ _ _ D v) as (n & _ & G).
    rewrite F, U.
    replace (xmul (XFin (-1)) (phi v)) with (phi n); [now rewrite (d_rd_id _ _ _ D)|]. rewrite G. destruct (phi v); cbn; unfold xsinf; xcase; auto; try (exfalso; lra). f_equal. lra.
  Qed.
  Lemma xopp_le (a b : xr) : a <== b -> xopp b <== xopp a.
  Proof. destruct a, b; cbn; auto; try discriminate. intros H. destruct (Rle_bool_spec r r0); [|discriminate]. apply Rle_bool_true. lra. Qed.
  Lemma xopp_number (a : xr) : a <> XNan -> xopp a <> XNan. Proof. destruct a; cbn; congruence. Qed.

  Definition signed_phi (t : bool) (a : xr) : xr := if t then a else xopp a.
  Lemma sign_phi (t : bool) (u v z : N) : phi u = phi (if t then n_one else n_mone) -> n_mul u v = Ret z -> phi z = signed_phi t (phi v).
  Proof. destruct t; intros U E; [apply (times_one u)|apply (times_mone u)]; auto; rewrite U; [apply (d_one _ _ _ D)|apply (d_mone _ _ _ D)]. Qed.
  Lemma signed_number t (a : xr) : a <> XNan -> signed_phi t a <> XNan. Proof. destruct t; auto. apply xopp_number. Qed.
  Lemma asign_phi dbg (t : bool) e : aproper e -> exists f, asign dbg (if t then n_one else n_mone) e = Ret f /\ aproper f
    /\ phi (alower f) = signed_phi t (phi (if t then alower e else aupper e)) /\ phi (aupper f) = signed_phi t (phi (if t then aupper e else alower e)).
  Proof.
    intros P. set (s := (if t then n_one else n_mone) : N). assert (S1 : phi s <> XNan) by (unfold s; destruct t; rewrite ?(d_one _ _ _ D), ?(d_mone _ _ _ D); discriminate).
    unfold aproper in P. assert (P' := P). apply le_phi in P'. destruct (xle_ok _ _ P') as [K1 K2]. apply xok_iff in K1, K2.
    assert (ML : forall a b : xr, a <== b -> if t then signed_phi t a <== signed_phi t b else signed_phi t b <== signed_phi t a) by (intros a b H; destruct t; cbn; auto; now apply xopp_le).
    destruct e as [v|X]; cbn [asign alower aupper] in *.
    - destruct (d_mul _ _ _ D s v) as (z & E & _). rewrite E. cbn [bind]. eexists. split; [reflexivity|]. cbn [alower aupper].
      assert (phi z = signed_phi t (phi v)) as F by (apply (sign_phi t s); auto). split; [change (ok z); apply (ok_phi D); rewrite F; now apply signed_number|]. destruct t; auto.
    - assert (Ps : aproper (Sc s)) by (apply (ok_phi D), S1).
      destruct (mul_op_ok HN dbg (Sc s) (Iv X) Ps P) as [Q1 Q2].
      destruct Q1 as (Z & EZ). { intros u v _ _. destruct (d_mul _ _ _ D u v) as (z & E & _). eauto. }
      destruct (Q2 Z EZ) as (_ & _ & Q). rewrite EZ. cbn [bind]. eexists. split; [reflexivity|].
      assert (SU : forall u, ael (Sc s) u -> phi u = phi s). { intros u [A B]. apply xle_antisym; now apply le_phi. }
      assert (IMG : forall u v z, ael (Sc s) u -> n_mul u v = Ret z -> phi z = signed_phi t (phi v)) by (intros u v z Hu E; apply (sign_phi t u); auto).
      destruct Q as (A & (p1 & (u1 & v1 & U1 & V1 & M1) & L1) & (p2 & (u2 & v2 & U2 & V2 & M2) & L2)).
      { intros (u & v & z & Hu & Hv & E & Nz). apply (nan_not_ok HO) in Nz. apply Nz, (ok_phi D). rewrite (IMG u v z Hu E). apply signed_number.
        destruct Hv as [Hv _]. apply le_phi, xle_ok in Hv as [_ Hv]. now apply xok_iff. }
      rewrite (d_eq _ _ _ D), xeq_iff in L1, L2. destruct L1 as [L1 _], L2 as [L2 _].
      assert (AS : ael (Sc s) s) by (split; exact Ps).
      assert (END : forall v, el X v -> exists z, phi z = signed_phi t (phi v) /\ el Z z).
      { intros v Hv. destruct (d_mul _ _ _ D s v) as (z & E & _). exists z. split; [eapply IMG; eauto|]. apply A. exists s, v. auto. }
      destruct (END (lo X)) as (zl & Zl & [B1 B2]); [apply (ael_lower HO (Iv X)); exact P|]. destruct (END (hi X)) as (zu & Zu & [B3 B4]); [apply (ael_upper HO (Iv X)); exact P|].
      apply le_phi in B1, B2, B3, B4. rewrite Zl in B1, B2. rewrite Zu in B3, B4. apply IMG in M1, M2; auto. rewrite L1 in M1. rewrite L2 in M2. rewrite M1 in B1, B3. rewrite M2 in B2, B4.
      destruct V1 as [V1 V1'], V2 as [V2 V2']. apply le_phi in V1, V1', V2, V2'. cbn [alower aupper] in V1, V1', V2, V2'. apply ML in V1, V1', V2, V2'.
      cbn [alower aupper]. rewrite M1, M2.
      assert (R : aproper (Iv Z)) by (apply le_phi; cbn [alower aupper]; rewrite M1, M2; apply ML in P'; destruct t; eapply xle_trans; eauto).
      split; [exact R|]. destruct t; split; apply xle_antisym; auto.
  Qed.

  Lemma point_phi y : o_eq (alower y) (aupper y) = true -> forall w, ael y w <-> ael (Sc (alower y)) w.
  Proof. intros H w. rewrite (ol_eq _ HO) in H. apply andb_true_iff in H as [H1 H2]. unfold ael. cbn [alower aupper]. split; intros [A B]; split; auto; eapply (ol_trans _ HO); eauto. Qed.
  Lemma xopp_opp (a : xr) : xopp (xopp a) = a. Proof. destruct a; cbn; auto. now rewrite Ropp_involutive. Qed.

  (** -exp(k log(-x)) or exp(k log(-x)) *)
  Lemma negpow_phi dbg k x y : increasing nonneg (m_log M) -> increasing anywhere (m_exp M) -> aproper x -> o_lt (alower x) n_zero = true -> finite (alower y) ->
    exists e, (nx <- aneg dbg x ;; m <- amax0 dbg nx ;; l <- alog M dbg m ;; e <- amul0 (Sc (alower y)) l ;; e <- aexp M dbg e ;; asign dbg (if Z.rem k 2 =? 0 then n_one else n_mone)%Z e) = Ret e
      /\ aproper e /\ (forall v w, ael x v -> o_lt v n_zero = true -> ael (Sc (alower y)) w -> exists z, pow_signed M k v w = Ret z /\ ael e z)
      /\ (o_lt (aupper x) n_zero = true -> (exists v w z, ael x v /\ ael (Sc (alower y)) w /\ pow_signed M k v w = Ret z /\ phi z = phi (alower e))
         /\ (exists v w z, ael x v /\ ael (Sc (alower y)) w /\ pow_signed M k v w = Ret z /\ phi z = phi (aupper e))).
  Proof.
    intros IL IE Px Lx Fy. destruct (aneg_phi dbg x Px) as (n & -> & Nl & Nu & Pn). cbn [bind]. rewrite pow_code.
    destruct (amax0_phi dbg n Pn) as (m & -> & Pm & Hm & C1 & C2). cbn [bind].
    assert (Py : aproper (Sc (alower y))).
    { change (ok (alower y)). destruct (ok_dec HN (alower y)) as [K|K]; [exact K|]. now destruct Fy. }
    destruct (epow_phi dbg m (Sc (alower y)) IL IE Pm Hm Py Fy Fy) as (e & -> & Pe & A & (v1 & w1 & z1 & X1 & Y1 & F1 & G1) & (v2 & w2 & z2 & X2 & Y2 & F2 & G2)). cbn [bind].
    assert (Rm : (Z.rem k 2 =? 0)%Z = Z.even k).
    { apply eq_iff_eq_true. rewrite Z.eqb_eq, Z.even_spec. rewrite Z.rem_divide by lia. unfold Z.Even, Z.divide. split; intros (q & ->); exists q; lia. }
    rewrite Rm. destruct (asign_phi dbg (Z.even k) e Pe) as (f & -> & Pf & Fl & Fu). exists f. split; [reflexivity|]. split; [exact Pf|].
    assert (SG : forall v w z nv : N, o_lt v n_zero = true -> n_neg v = Ret nv -> pow_formula M nv w = Ret z -> exists z', pow_signed M k v w = Ret z' /\ phi z' = signed_phi (Z.even k) (phi z)).
    { intros v w z nv Hv En Ez. unfold pow_signed. replace (o_le n_zero v) with false by (clear - HO Hv; ord HO). rewrite En. cbn [bind]. rewrite Ez. cbn [bind].
      destruct (Z.even k); cbn [signed_phi]; [eauto|]. destruct (d_neg _ _ _ D z) as (z' & E' & P'). eauto. }
    assert (SW : forall z, ael e z -> signed_phi (Z.even k) (phi (if Z.even k then alower e else aupper e)) <== signed_phi (Z.even k) (phi z)
      /\ signed_phi (Z.even k) (phi z) <== signed_phi (Z.even k) (phi (if Z.even k then aupper e else alower e))).
    { intros z [B1 B2]. apply le_phi in B1, B2. destruct (Z.even k); cbn [signed_phi]; split; auto; now apply xopp_le. }
    split.
    - intros v w Xv Hv Yw. destruct (d_neg _ _ _ D v) as (nv & En & Pnv).
      assert (Mn : ael m nv).
      { apply C1; [destruct Xv as [V1 V2]; apply le_phi in V1, V2; split; apply le_phi; rewrite ?Nl, ?Nu, Pnv; now apply xopp_le|].
        apply le_phi. rewrite Pnv, (d_zero _ _ _ D). rewrite (d_lt _ _ _ D), (d_zero _ _ _ D) in Hv. destruct (phi v) as [| |r|]; try discriminate; auto. cbn in *. apply Rle_bool_true.
        unfold xlt in Hv. cbn in Hv. destruct (Rle_bool_spec r 0); [lra|discriminate]. }
      destruct (A nv w Mn Yw) as (z & Ez & Bz). destruct (SG v w z nv Hv En Ez) as (z' & E' & P'). exists z'. split; [exact E'|].
      destruct (SW z Bz) as [S1 S2]. split; apply le_phi; rewrite ?Fl, ?Fu, P'; auto.
    - intros Hu.
      assert (C3 : forall v, ael m v -> ael n v).
      { apply C2. apply le_phi. rewrite Nl, (d_zero _ _ _ D). rewrite (d_lt _ _ _ D), (d_zero _ _ _ D) in Hu. destruct (phi (aupper x)) as [| |r|]; try discriminate; auto. cbn in *. apply Rle_bool_true.
        unfold xlt in Hu. cbn in Hu. destruct (Rle_bool_spec r 0); [lra|discriminate]. }
      assert (BACK : forall v w z, ael m v -> ael (Sc (alower y)) w -> pow_formula M v w = Ret z -> exists v' z' : N, ael x v' /\ pow_signed M k v' w = Ret z' /\ phi z' = signed_phi (Z.even k) (phi z)).
      { intros v w z Hv Hw Ez. destruct (d_neg _ _ _ D v) as (v' & En & Pv'). destruct (d_neg _ _ _ D v') as (nv & En' & Pnv). rewrite Pv', xopp_opp in Pnv.
        assert (Xv' : ael x v').
        { destruct (C3 v Hv) as [V1 V2]. apply le_phi in V1, V2. rewrite Nl in V1. rewrite Nu in V2. apply xopp_le in V1, V2. rewrite xopp_opp in V1, V2. split; apply le_phi; rewrite Pv'; auto. }
        assert (Mnv : ael m nv). { destruct Hv as [V1 V2]. apply le_phi in V1, V2. split; apply le_phi; rewrite Pnv; auto. }
        destruct (A nv w Mnv Hw) as (zn & Ezn & _). assert (phi zn = phi z).
        { assert (exists s, phi w = XFin s) as (s & Es).
          { destruct Fy as [Fa Fb]. rewrite (nan_not_ok HO), (ok_phi D) in Fa. rewrite (infinite_phi D) in Fb. destruct Hw as [W1 W2]. apply le_phi in W1, W2. cbn [alower aupper] in W1, W2.
            assert (phi w = phi (alower y)) as Ew by (apply xle_antisym; auto). rewrite Ew. destruct (phi (alower y)) as [| |s|]; [tauto|tauto|eauto|tauto]. }
          assert (NN : nonneg v /\ nonneg nv). { destruct Hv as [V1 _], Mnv as [V2 _]. split; [apply (ol_trans _ HO) with (alower m); auto|apply (ol_trans _ HO) with (alower m); auto]. }
          destruct NN as [NN1 NN2]. assert (NV : phi v <> XNan). { apply le_phi, xle_ok in NN1 as [_ NN1]. now apply xok_iff. }
          assert (EL : phi (m_log M nv) = phi (m_log M v)) by (apply (increasing_phi nonneg); auto; congruence).
          assert (NL : phi (m_log M v) <> XNan). { assert (o_le (m_log M v) (m_log M v) = true) as K by (apply IL; auto; apply le_phi; now apply xle_refl). apply (ok_phi D). exact K. }
          destruct (formula_phi nv w s Es ltac:(congruence)) as (e1 & ? & Q1 & Q2 & _). destruct (formula_phi v w s Es NL) as (e2 & ? & Q3 & Q4 & _).
          rewrite Ezn in Q1. injection Q1 as ->. rewrite Ez in Q3. injection Q3 as ->. apply (increasing_phi anywhere); unfold anywhere; auto; [congruence|].
          rewrite Q2. apply round_number, xm_number. congruence. }
        assert (Lv : o_lt v' n_zero = true). { destruct Xv' as [_ V]. clear - HO V Hu. ord HO. }
        destruct (SG v' w zn nv Lv En' Ezn) as (z' & E' & P'). exists v', z'. split; [exact Xv'|]. split; [exact E'|]. congruence. }
      destruct (BACK v1 w1 z1 X1 Y1 F1) as (a1 & b1 & A1 & B1 & D1). destruct (BACK v2 w2 z2 X2 Y2 F2) as (a2 & b2 & A2 & B2 & D2).
      rewrite G1 in D1. rewrite G2 in D2. rewrite Fl, Fu. destruct (Z.even k); split; eauto 10.
  Qed.

  Lemma aassign_both (R : ivl N) e : proper R -> aproper e -> exists Z, aassign R e = Ret Z /\ (forall v, el R v \/ ael e v -> el Z v).
  Proof.
    intros PR P. destruct e as [v|X]; cbn [aassign].
    - eexists. split; [reflexivity|]. apply (assign_bounds_hull HO R (Ivl v v) PR P).
    - destruct (iassign_hull HO R X PR P) as (Z & E & H). exists Z. split; [exact E|]. apply H.
  Qed.
  Theorem pow_integer_machine dbg k x y : increasing nonneg (m_log M) -> increasing anywhere (m_exp M) -> aproper x -> o_lt (alower x) n_zero = true ->
    o_eq (alower y) (aupper y) = true -> finite (alower y) -> m_trunc M (alower y) = Ret k -> o_eq (m_of_Z M k) (alower y) = true ->
    exists Z, ipow M dbg x y = Ret Z /\ (forall v w, ael x v -> ael y w -> exists z, pow_signed M k v w = Ret z /\ el Z z)
      /\ (o_lt (aupper x) n_zero = true -> is_hull (img2 (pow_signed M k) x y) Z).
  Proof.
    intros IL IE Px Lx Ey Fy Tk Ek. pose proof (point_phi y Ey) as YP.
    assert (Py : aproper y) by (unfold aproper; rewrite (ol_eq _ HO) in Ey; apply andb_true_iff in Ey; tauto).
    assert (Fy2 : finite (aupper y)).
    { destruct Fy as [F1 F2]. rewrite (nan_not_ok HO), (ok_phi D) in F1. rewrite (infinite_phi D) in F2. rewrite (d_eq _ _ _ D), xeq_iff in Ey. destruct Ey as [E _]. rewrite E in F1, F2.
      split; [now rewrite (nan_not_ok HO), (ok_phi D)|now rewrite (infinite_phi D)]. }
    destruct (negpow_phi dbg k x y IL IE Px Lx Fy) as (e & E & Pe & A & H). unfold aproper in Pe. destruct (ol_ok _ HO _ _ Pe) as [Q1 Q2].
    assert (CODE : forall R, (nx <- aneg dbg x ;; m <- amax0 dbg nx ;; l <- alog M dbg m ;; e <- amul0 (Sc (alower y)) l ;; e <- aexp M dbg e ;;
      e <- asign dbg (if Z.rem k 2 =? 0 then n_one else n_mone)%Z e ;; aassign R e) = aassign R e).
    { intros R. destruct (aneg dbg x) as [nx| | | |]; cbn [bind] in *; try discriminate E. destruct (amax0 dbg nx) as [m| | | |]; cbn [bind] in *; try discriminate E.
      destruct (alog M dbg m) as [l| | | |]; cbn [bind] in *; try discriminate E. destruct (amul0 (Sc (alower y)) l) as [e0| | | |]; cbn [bind] in *; try discriminate E.
      destruct (aexp M dbg e0) as [e1| | | |]; cbn [bind] in *; try discriminate E. rewrite E. reflexivity. }
    unfold ipow. rewrite (aproper_assigned HO x Px), (aproper_assigned HO y Py). cbn [andb]. replace (expects_debug dbg true) with (Ret tt) by (now destruct dbg). cbn [bind].
    rewrite (possibly_nonneg_gen dbg x Px), (possibly_neg_gen dbg x Px), Lx. cbn [bind].
    destruct (o_le n_zero (aupper x)) eqn:Ux.
    - destruct (amax0_phi dbg x Px) as (m & Em & Pm & Nm & C1 & _).
      destruct (epow_phi dbg m y IL IE Pm Nm Py Fy Fy2) as (f & Ef & Pf & Af & _). destruct (aassign_default_phi f Pf) as (Z & EZ & Zl & Zu).
      rewrite pow_code, Em. cbn [bind]. rewrite Ef. cbn [bind]. rewrite EZ. cbn [bind]. rewrite Tk. cbn [bind]. rewrite Ey, Ek. cbn [andb]. rewrite CODE.
      assert (PZ : proper Z) by (apply le_phi; rewrite Zl, Zu; now apply le_phi). destruct (aassign_both Z e PZ Pe) as (W & EW & BW). exists W. split; [exact EW|]. split.
      + intros v w Xv Yw. destruct (o_le n_zero v) eqn:Nv.
        * destruct (Af v w (C1 v Xv Nv) Yw) as (z & Ez & [B1 B2]). exists z. split; [unfold pow_signed; now rewrite Nv|]. apply BW. left. split; apply le_phi; rewrite ?Zl, ?Zu; now apply le_phi.
        * assert (o_lt v n_zero = true) as Lv. { destruct Xv as [Xv _]. pose proof zero_ok as Z0. clear - HO Nv Xv Z0. ord HO. }
          destruct (A v w Xv Lv (proj1 (YP w) Yw)) as (z & Ez & Bz). exists z. split; [exact Ez|]. apply BW. now right.
      + intros K. exfalso. clear - HO K Ux. ord HO.
    - assert (Lu : o_lt (aupper x) n_zero = true) by (pose proof zero_ok as Z0; destruct (ol_ok _ HO _ _ Px) as [_ P2]; clear - HO Ux Z0 P2; ord HO).
      cbn [bind]. rewrite Tk. cbn [bind]. rewrite Ey, Ek. cbn [andb]. rewrite CODE. destruct (aassign_default_phi e Pe) as (Z & EZ & Zl & Zu). exists Z. split; [exact EZ|].
      assert (AA : forall v w, ael x v -> ael y w -> exists z, pow_signed M k v w = Ret z /\ el Z z).
      { intros v w Xv Yw. assert (o_lt v n_zero = true) as Lv by (destruct Xv as [_ Xv]; clear - HO Xv Lu; ord HO).
        destruct (A v w Xv Lv (proj1 (YP w) Yw)) as (z & Ez & [B1 B2]). exists z. split; [exact Ez|]. split; apply le_phi; rewrite ?Zl, ?Zu; now apply le_phi. }
      split; [exact AA|]. intros _. destruct (H Lu) as ((v1 & w1 & z1 & X1 & Y1 & F1 & G1) & (v2 & w2 & z2 & X2 & Y2 & F2 & G2)). apply YP in Y1, Y2. split; [|split].
      + intros r (v & w & Xv & Yw & F). destruct (AA v w Xv Yw) as (z & F' & B). rewrite F in F'. injection F' as <-. exact B.
      + exists z1. split; [exists v1, w1; auto|]. apply (le_phi_eq D); [congruence|]. apply (ok_phi D). rewrite G1. now apply (ok_phi D).
      + exists z2. split; [exists v2, w2; auto|]. apply (le_phi_eq D); [congruence|]. apply (ok_phi D). rewrite G2. now apply (ok_phi D).
  Qed.
End Pow.
