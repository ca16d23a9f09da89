(** fractional_weights, blend_fractions, blend_linear (interval.hpp 1258-1337). *)
From Coq Require Import Reals ZArith Bool Lra Lia.
From Flocq Require Import Core BinarySingleNaN.
From Verif Require Import Outcome SetModel Spec SetProofs Num NumLaws IntervalModel IvlSpec IvlProofs ArithProofs IntNum XReal RealNum FloatNum FloatProofs
  MathModel FloatMath RealMath MathSpec MathProofs FloatMathProofs TrigProofs Atan2Proofs PowProofs AlgoProofs WrapProofs MathWrap IvlWrap.
Open Scope R_scope.

Section Checks.
  Context {N : num} {rd : R -> xr} {phi : N -> xr} (D : denotes N rd phi) {M : math N} (HM : mdenotes D M) (dbg : bool).
  Let HO : ord_laws N := denotes_ord D.
  Let HN : num_laws N := denotes_laws D.
  Implicit Types (x y a b f : arg N).

  Lemma always_geq x (c : N) : aproper x -> ok c -> o_le c (alower x) = true -> exists s, rel_geq dbg x (Sc c) = Ret s /\ wf_set s /\ ~ member s false.
  Proof.
    intros Hx Hc H. unfold rel_geq. rewrite (rel_pre_ok HO) by auto. cbn [bind]. eexists. split; [reflexivity|].
    destruct (compare_leq_exact HO (Sc c) x Hc Hx) as [W E]. split; [exact W|]. rewrite (E false). intros (u & v & [_ Hu] & [Hv _] & K). cbn in Hu.
    assert (o_le u v = true) by (eapply (ol_trans N HO); [exact Hu|]; eapply (ol_trans N HO); eauto). congruence.
  Qed.
  Lemma always_leq x (c : N) : aproper x -> ok c -> o_le (aupper x) c = true -> exists s, rel_leq dbg x (Sc c) = Ret s /\ wf_set s /\ ~ member s false.
  Proof.
    intros Hx Hc H. unfold rel_leq. rewrite (rel_pre_ok HO) by auto. cbn [bind]. eexists. split; [reflexivity|].
    destruct (compare_leq_exact HO x (Sc c) Hx Hc) as [W E]. split; [exact W|]. rewrite (E false). intros (u & v & [_ Hu] & [Hv _] & K). cbn in Hv.
    assert (o_le u v = true) by (eapply (ol_trans N HO); [exact Hu|]; eapply (ol_trans N HO); eauto). congruence.
  Qed.
  Lemma always_gt x (c : N) : aproper x -> ok c -> o_lt c (alower x) = true -> exists s, rel_gt dbg x (Sc c) = Ret s /\ ~ member s false.
  Proof.
    intros Hx Hc H. unfold rel_gt. rewrite (rel_pre_ok HO) by auto. cbn [bind]. eexists. split; [reflexivity|].
    destruct (compare_lt_exact HO (Sc c) x Hc Hx) as [W E]. rewrite (E false). intros (u & v & [_ Hu] & [Hv _] & K). cbn in Hu.
    assert (o_lt u v = true) by (ord HO). congruence.
  Qed.
  Lemma ok_zero : ok (n_zero : N). Proof. apply (ok_phi D). rewrite (d_zero _ _ _ D). discriminate. Qed.
  Lemma ok_one : ok (n_one : N). Proof. apply (ok_phi D). rewrite (d_one _ _ _ D). discriminate. Qed.

  Lemma nonneg_check x : aproper x -> nonneg (alower x) -> check dbg (always_nonneg dbg x) = Ret tt.
  Proof.
    intros Hx H. unfold check. destruct dbg eqn:Ed; [|reflexivity]. rewrite <- Ed. destruct x as [v|X]; cbn [always_nonneg].
    - unfold nonneg in H. cbn in H. now rewrite H.
    - destruct (always_geq (Iv X) n_zero Hx ok_zero H) as (s & -> & _ & K). cbn [bind]. now rewrite (proj2 (always_iff s) K).
  Qed.
  Lemma fraction_check f : aproper f -> nonneg (alower f) -> o_le (aupper f) n_one = true -> check dbg (always_fraction dbg f) = Ret tt.
  Proof.
    intros Hf H H1. unfold check. destruct dbg eqn:Ed; [|reflexivity]. rewrite <- Ed. destruct f as [v|F]; cbn [always_fraction].
    - unfold nonneg in H. cbn in H, H1. now rewrite H, H1.
    - destruct (always_geq (Iv F) n_zero Hf ok_zero H) as (s & -> & W & K). destruct (always_leq (Iv F) n_one Hf ok_one H1) as (t & -> & W' & K'). cbn [bind].
      rewrite (proj2 (always_iff _)); [reflexivity|]. rewrite (band_exact s t W W'). intros (p & q & Hp & Hq & E). destruct p; [destruct q; [discriminate|]|]; tauto.
  Qed.
  Lemma sum_check x y s : aproper x -> aproper y -> nonneg (alower x) -> nonneg (alower y) -> n_add (alower x) (alower y) = Ret s -> o_lt n_zero s = true ->
    check dbg (always_positive_sum dbg x y) = Ret tt.
  Proof.
    intros Hx Hy H1 H2 Hs H. unfold check. destruct dbg eqn:Ed; [|reflexivity]. rewrite <- Ed.
    assert (G : exists Z, iadd dbg x y = Ret Z /\ proper Z /\ o_lt n_zero (lo Z) = true).
    { unfold iadd. rewrite (pre_ok HN dbg x y Hx Hy). cbn [bind].
      assert (Nx : forall z : arg N, nonneg (alower z) -> is_ninf (alower z) = false).
      { intros z Hz. apply not_true_iff_false. rewrite (ninf_phi D). intros E. unfold nonneg in Hz. rewrite (d_le _ _ _ D), E, (d_zero _ _ _ D) in Hz. discriminate. }
      rewrite (Nx x H1), (Nx y H2), !andb_false_l, orb_false_r, andb_false_r. rewrite Hs. cbn [bind].
      destruct (d_add _ _ _ D (aupper x) (aupper y)) as (u & Hu & Eu). rewrite Hu. cbn [bind].
      assert (Os : ok s) by (ord HO).
      assert (Ou : ok u).
      { apply (ok_phi D). rewrite Eu, (xround_nan D). unfold nonneg, aproper in *. rewrite (d_le _ _ _ D) in *. rewrite (d_zero _ _ _ D) in *.
        destruct (phi (alower x)), (phi (aupper x)); try discriminate; destruct (phi (alower y)), (phi (aupper y)); try discriminate. }
      assert (L : o_le s u = true) by (exact (nl_add_mono N HN _ _ _ _ _ _ Hx Hy Hs Hu Os Ou)).
      rewrite (mk_proper HO) by exact L. eexists. split; [reflexivity|]. split; [exact L|exact H]. }
    destruct G as (Z & EZ & PZ & LZ). destruct (always_gt (Iv Z) n_zero PZ ok_zero LZ) as (c & Ec & Kc).
    destruct x as [v|X], y as [w|Y]; cbn [always_positive_sum].
    - cbn in Hs. rewrite Hs. cbn [bind]. now rewrite H.
    - rewrite EZ. cbn [bind]. rewrite Ec. cbn [bind]. now rewrite (proj2 (always_iff c) Kc).
    - rewrite EZ. cbn [bind]. rewrite Ec. cbn [bind]. now rewrite (proj2 (always_iff c) Kc).
    - rewrite EZ. cbn [bind]. rewrite Ec. cbn [bind]. now rewrite (proj2 (always_iff c) Kc).
  Qed.

  (** Floating-point operations are total. *)
  Lemma total_add (u v : N) : exists z, n_add u v = Ret z. Proof. destruct (d_add _ _ _ D u v) as (z & -> & _). eauto. Qed.
  Lemma total_mul (u v : N) : exists z, n_mul u v = Ret z. Proof. destruct (d_mul _ _ _ D u v) as (z & -> & _). eauto. Qed.
  Lemma total_sub (u v : N) : exists z, n_sub u v = Ret z. Proof. destruct (d_sub _ _ _ D u v) as (z & -> & _). eauto. Qed.

  Lemma blend_fractions_checked f x y : aassigned f = true -> aproper x -> aproper y -> check dbg (always_fraction dbg f) = Ret tt ->
    exists Z, iblend_fractions dbg f x y = Ret Z.
  Proof.
    intros Hf Hx Hy C. unfold iblend_fractions. rewrite Hf, (aproper_assigned HO x Hx), (aproper_assigned HO y Hy). cbn [andb].
    replace (expects_debug dbg true) with (Ret tt) by (now destruct dbg). cbn [bind]. rewrite C. cbn [bind].
    set (ql := if o_le (alower y) (alower x) then alower f else aupper f). set (qh := if o_le (aupper y) (aupper x) then aupper f else alower f).
    destruct (total_mul ql (alower x)) as (p & ->). destruct (total_sub n_one ql) as (g & ->). cbn [bind]. destruct (total_mul g (alower y)) as (q & ->). cbn [bind]. destruct (total_add p q) as (rl & ->). cbn [bind].
    destruct (total_mul qh (aupper x)) as (p' & ->). destruct (total_sub n_one qh) as (g' & ->). cbn [bind]. destruct (total_mul g' (aupper y)) as (q' & ->). cbn [bind]. destruct (total_add p' q') as (ru & ->). cbn [bind].
    destruct (fub_total HO rl ru) as (Z & -> & _). eauto.
  Qed.
  Lemma blend_fractions_total f x y : aproper f -> aproper x -> aproper y -> nonneg (alower f) -> o_le (aupper f) n_one = true ->
    exists Z, iblend_fractions dbg f x y = Ret Z.
  Proof. intros Hf Hx Hy H0 H1. apply blend_fractions_checked; auto; [now apply (aproper_assigned HO)|now apply fraction_check]. Qed.
  (** also with NaN end points *)
  Lemma fraction_check_nan (l u : N) : o_lt u l = false -> o_lt l n_zero = false -> o_lt n_one u = false -> check dbg (always_fraction dbg (Iv (Ivl l u))) = Ret tt.
  Proof.
    intros A H0 H1. unfold check. destruct dbg eqn:Ed; [|reflexivity]. rewrite <- Ed. cbn [always_fraction]. unfold rel_geq, rel_leq, rel_pre. cbn [aassigned].
    replace (assigned (Ivl l u)) with true by (unfold assigned; cbn [lo hi]; now rewrite A). cbn [andb]. replace (expects_debug dbg true) with (Ret tt) by (now destruct dbg). cbn [bind].
    unfold compare_leq. cbn [alower aupper lo hi]. rewrite H0, H1. destruct (o_le n_zero u), (o_le l n_one); reflexivity.
  Qed.

  (** 1 / (1 + q) *)
  Lemma share (q : N) : xle (XFin 0) (phi q) = true \/ phi q = XNinf -> exists d r, n_add n_one q = Ret d /\ n_div n_one d = Ret r
    /\ xle (XFin 0) (phi r) = true /\ xle (phi r) (XFin 1) = true /\ (phi q = XNinf \/ phi q = XPinf -> phi r = XFin 0)
    /\ (xle (XFin 0) (phi q) = true -> xle (XFin 1) (phi d) = true /\ phi d = xround rd (xadd (XFin 1) (phi q)) /\ phi r = xround rd (xdiv (XFin 1) (phi d))).
  Proof.
    intros Hq. destruct (d_add _ _ _ D n_one q) as (d & Hd & Ed). destruct (d_div _ _ _ D n_one d) as (r & Hr & Er & _). exists d, r. split; [exact Hd|]. split; [exact Hr|].
    rewrite (d_one _ _ _ D) in *. pose proof (d_rd_0 _ _ _ D) as R0. pose proof (md_rd_1 D M HM) as R1.
    destruct Hq as [Hq|Hq].
    - assert (L : xle (XFin 1) (phi d) = true).
      { rewrite Ed. replace (XFin 1) with (xround rd (XFin 1)) at 1 by exact R1. apply (xround_mono D); [discriminate| |]; clear Ed Er; destruct (phi q) as [| |t|]; cbn in *; try discriminate; auto.
        destruct (Rle_bool_spec 0 t); [|discriminate]. apply Rle_bool_true. lra. }
      assert (N0 : phi d <> XFin 0) by (intros E; rewrite E in L; cbn in L; destruct (Rle_bool_spec 1 0); [lra|discriminate]).
      specialize (Er N0).
      assert (Dd : exists e, xdiv (XFin 1) (phi d) = XFin e /\ 0 <= e <= 1).
      { destruct (phi d) as [| |t|]; cbn in *; try discriminate.
        - destruct (Rle_bool_spec 1 t); [|discriminate]. rewrite Req_bool_false by lra. exists (1 / t). split; [reflexivity|].
          split; [apply Rmult_le_pos; [lra|left; apply Rinv_0_lt_compat; lra]|]. apply (Rmult_le_reg_r t); [lra|]. unfold Rdiv. rewrite Rmult_assoc, Rinv_l by lra. lra.
        - exists 0. split; [reflexivity|lra]. }
      destruct Dd as (e & Ee & He). rewrite Ee in Er. cbn in Er.
      split; [rewrite Er, <- R0; apply (d_rd_mono _ _ _ D); lra|]. split; [rewrite Er, <- R1; apply (d_rd_mono _ _ _ D); lra|]. split.
      + intros [K|K]; rewrite K in *; [discriminate|]. cbn in Ed. rewrite Ed in Ee. cbn in Ee. injection Ee as <-. now rewrite Er.
      + intros _. split; [exact L|]. split; [exact Ed|]. rewrite Ee. exact Er.
    - rewrite Hq in *. cbn in Ed. rewrite Ed in *. specialize (Er ltac:(discriminate)). cbn in Er. rewrite R0 in Er. rewrite Er.
      split; [apply Rle_bool_true; lra|]. split; [apply Rle_bool_true; lra|]. split; [auto|discriminate].
  Qed.
  (** the quotient in front of it *)
  Lemma ratio (b a : N) : xle (XFin 0) (phi a) = true -> xle (XFin 0) (phi b) = true -> ~ (phi a = XPinf /\ phi b = XPinf) -> ~ (phi a = XFin 0 /\ phi b = XFin 0) ->
    exists q, n_div b a = Ret q /\ (xle (XFin 0) (phi q) = true \/ phi q = XNinf) /\ (phi a = XFin 0 -> phi q = XNinf \/ phi q = XPinf) /\ (phi a <> XFin 0 -> phi q = xround rd (xdiv (phi b) (phi a))).
  Proof.
    intros Ha Hb N1 N2. destruct (d_div _ _ _ D b a) as (q & Hq & E1 & E2). exists q. split; [exact Hq|].
    assert (Z : phi a = XFin 0 \/ phi a <> XFin 0).
    { destruct (phi a) as [| |r|]; try (right; discriminate). destruct (Req_dec r 0); [left; now subst|right; intros K; injection K as K; auto]. }
    destruct Z as [Z|Z].
    - assert (I : phi q = XNinf \/ phi q = XPinf).
      { assert (L : o_lt n_zero b = true).
        { rewrite (d_lt _ _ _ D), (d_zero _ _ _ D). unfold xlt. rewrite Hb. destruct (phi b) as [| |r|]; try discriminate Hb; auto. cbn in *. destruct (Rle_bool_spec r 0); auto.
          exfalso. apply N2. split; auto. f_equal. destruct (Rle_bool_spec 0 r); [lra|discriminate]. }
        pose proof (proj2 (zero_phi D a) Z) as IZ. destruct (d_zero_float _ _ _ D a IZ) as [P|P].
        - destruct (d_pos_zero _ _ _ D b a P) as [K _]. rewrite (K L) in Hq. injection Hq as <-. right. apply (d_top _ _ _ D).
        - destruct (d_neg_zero _ _ _ D b a P) as [K _]. rewrite (K L) in Hq. injection Hq as <-. left. apply (d_bot _ _ _ D). }
      split; [destruct I as [I|I]; rewrite I; auto|]. split; [auto|tauto].
    - specialize (E1 Z). split; [left|split; [tauto|auto]]. rewrite E1. rewrite <- (d_rd_0 _ _ _ D). change (rd 0) with (xround rd (XFin 0)).
      assert (P : xle (XFin 0) (xdiv (phi b) (phi a)) = true).
      { destruct (phi a) as [| |r|], (phi b) as [| |s|]; cbn in *; try discriminate; try tauto; auto.
        - destruct (Rle_bool_spec 0 r); [|discriminate]. rewrite Req_bool_false by (intros ->; tauto). cbn. apply Rle_bool_true. destruct (Rle_bool_spec 0 s); [|discriminate].
          apply Rmult_le_pos; [lra|left; apply Rinv_0_lt_compat]. assert (r <> 0) by (intros ->; tauto). lra.
        - destruct (Rle_bool_spec 0 r); [|discriminate]. rewrite Rlt_bool_false by lra. reflexivity.
        - apply Rle_bool_true. lra. }
      apply (xround_mono D); [discriminate| |exact P]. intros K. rewrite K in P. discriminate.
  Qed.

  Lemma blend_linear_total a b x y s : aproper a -> aproper b -> aproper x -> aproper y -> nonneg (alower a) -> nonneg (alower b) ->
    ~ (infinite (alower a) /\ infinite (aupper b)) -> ~ (infinite (alower b) /\ infinite (aupper a)) ->
    n_add (alower a) (alower b) = Ret s -> o_lt n_zero s = true -> exists Z, iblend_linear dbg a b x y = Ret Z.
  Proof.
    intros Ha Hb Hx Hy Na Nb Fa Fb Hs Ps. unfold iblend_linear.
    rewrite (aproper_assigned HO a Ha), (aproper_assigned HO b Hb), (aproper_assigned HO x Hx), (aproper_assigned HO y Hy). cbn [andb].
    replace (expects_debug dbg true) with (Ret tt) by (now destruct dbg). cbn [bind]. rewrite !nonneg_check by auto. rewrite (sum_check a b s) by auto. cbn [bind].
    assert (S : ~ (phi (alower a) = XFin 0 /\ phi (alower b) = XFin 0)).
    { intros [E1 E2]. destruct (d_add _ _ _ D (alower a) (alower b)) as (z & Hz & Ez). rewrite Hs in Hz. injection Hz as <-. rewrite E1, E2 in Ez. cbn in Ez. rewrite Rplus_0_r, (d_rd_0 _ _ _ D) in Ez.
      rewrite (d_lt _ _ _ D), Ez, (d_zero _ _ _ D) in Ps. unfold xlt in Ps. cbn in Ps. now rewrite Rle_bool_true in Ps by lra. }
    rewrite !(infinite_phi D) in Fa, Fb.
    assert (Ia : ~ (phi (alower a) = XPinf /\ phi (aupper b) = XPinf)) by tauto. assert (Ib : ~ (phi (alower b) = XPinf /\ phi (aupper a) = XPinf)) by tauto.
    unfold nonneg, aproper in *. rewrite (d_le _ _ _ D) in Na, Nb. rewrite (d_le _ _ _ D) in Ha, Hb. rewrite (d_zero _ _ _ D) in *.
    pose proof (xle_trans _ _ _ Na Ha) as Pa. pose proof (xle_trans _ _ _ Nb Hb) as Pb.
    destruct (ratio (aupper b) (alower a)) as (q1 & E1 & Q1 & I1 & V1); auto.
    { intros [K1 K2]. apply S. split; [exact K1|]. rewrite K2 in Hb. destruct (phi (alower b)) as [| |r|]; try discriminate; cbn in *. f_equal. destruct (Rle_bool_spec 0 r), (Rle_bool_spec r 0); try discriminate; lra. }
    rewrite E1. cbn [bind]. destruct (share q1 Q1) as (d1 & r1 & Ed1 & Er1 & B1 & B1' & Z1 & W1). rewrite Ed1. cbn [bind]. rewrite Er1. cbn [bind].
    destruct (ratio (alower b) (aupper a)) as (q2 & E2 & Q2 & I2 & V2); auto; [tauto| |].
    { intros [K1 K2]. apply S. split; [|exact K2]. rewrite K1 in Ha. destruct (phi (alower a)) as [| |r|]; try discriminate; cbn in *. f_equal. destruct (Rle_bool_spec 0 r), (Rle_bool_spec r 0); try discriminate; lra. }
    rewrite E2. cbn [bind]. destruct (share q2 Q2) as (d2 & r2 & Ed2 & Er2 & B2 & B2' & Z2 & W2). rewrite Ed2. cbn [bind]. rewrite Er2. cbn [bind].
    assert (L : xle (phi r1) (phi r2) = true).
    { destruct (xeq (phi (alower a)) (XFin 0)) eqn:Ez; [apply xeq_iff in Ez as [Ez _]; rewrite (Z1 (I1 Ez)); exact B2|].
      assert (Za : phi (alower a) <> XFin 0) by (intros K; rewrite K in Ez; unfold xeq in Ez; cbn in Ez; rewrite Rle_bool_true in Ez by lra; discriminate).
      specialize (V1 Za). assert (Lt : xlt (XFin 0) (phi (alower a)) = true).
      { unfold xlt. rewrite Na. destruct (phi (alower a)) as [| |r|]; auto; try discriminate. cbn in *. destruct (Rle_bool_spec r 0); auto. exfalso. apply Za. f_equal. destruct (Rle_bool_spec 0 r); [lra|discriminate]. }
      assert (Za' : phi (aupper a) <> XFin 0) by (apply xlt_0_nz; right; exact (xlt_le_trans _ _ _ Lt Ha)).
      specialize (V2 Za'). pose proof (xlt_le_trans _ _ _ Lt Ha) as Lt'.
      assert (Nn : forall p q, xle (XFin 0) p = true -> xlt (XFin 0) q = true -> ~ (q = XPinf /\ p = XPinf) -> xdiv p q <> XNan).
      { intros p q Hp Hq O. unfold xlt in Hq. destruct p as [| |p|], q as [| |q|]; cbn in *; try discriminate; try tauto.
        - destruct (Rle_bool_spec q 0); [now rewrite andb_false_r in Hq|]. rewrite Req_bool_false by lra. discriminate.
        - destruct (Rlt_bool q 0); discriminate. }
      assert (Ib' : ~ (phi (aupper a) = XPinf /\ phi (alower b) = XPinf)) by tauto.
      assert (Ic : ~ (phi (alower a) = XPinf /\ phi (alower b) = XPinf)).
      { intros [K1 K2]. apply Ia. split; [exact K1|]. rewrite K2 in Hb. destruct (phi (aupper b)); try discriminate; reflexivity. }
      assert (If : forall r q, ~ (q = XPinf /\ XFin r = XPinf)) by (intros r q [_ K]; discriminate).
      assert (QL : xle (phi q2) (phi q1) = true).
      { rewrite V1, V2. apply (xround_mono D); [apply Nn; auto|apply Nn; auto|].
        apply (xle_trans _ (xdiv (phi (alower b)) (phi (alower a)))); [apply xdiv_pos; auto; apply Nn; auto|apply xdiv_mono; auto; apply Nn; auto]. }
      assert (Q1' : xle (XFin 0) (phi q1) = true).
      { destruct Q1 as [Q|Q]; [exact Q|]. destruct Q2 as [Q2|Q2].
        - rewrite Q in QL. destruct (phi q2); try discriminate; exact Q2.
        - exfalso. rewrite V1 in Q. assert (P : xle (XFin 0) (xround rd (xdiv (phi (aupper b)) (phi (alower a)))) = true).
          { rewrite <- (d_rd_0 _ _ _ D). change (rd 0) with (xround rd (XFin 0)). apply (xround_mono D); [discriminate|apply Nn; auto|].
            pose proof (xdiv_mono (XFin 0) _ _ Pb Lt (Nn (XFin 0) _ ltac:(apply Rle_bool_true; lra) Lt (If _ _)) (Nn _ _ Pb Lt ltac:(auto))) as K.
            replace (xdiv (XFin 0) (phi (alower a))) with (XFin 0) in K; [exact K|]. destruct (phi (alower a)) as [| |r|]; try discriminate Na; try reflexivity.
            cbn. rewrite Req_bool_false by (intros ->; tauto). f_equal. unfold Rdiv. ring. }
          rewrite Q in P. discriminate. }
      assert (Q2' : xle (XFin 0) (phi q2) = true).
      { destruct Q2 as [Q|Q]; [exact Q|]. exfalso. rewrite V2 in Q. assert (P : xle (XFin 0) (xround rd (xdiv (phi (alower b)) (phi (aupper a)))) = true).
        { rewrite <- (d_rd_0 _ _ _ D). change (rd 0) with (xround rd (XFin 0)). apply (xround_mono D); [discriminate|apply Nn; auto|].
          pose proof (xdiv_mono (XFin 0) _ _ Nb Lt' (Nn (XFin 0) _ ltac:(apply Rle_bool_true; lra) Lt' (If _ _)) (Nn _ _ Nb Lt' ltac:(auto))) as K.
          replace (xdiv (XFin 0) (phi (aupper a))) with (XFin 0) in K; [exact K|]. destruct (phi (aupper a)) as [| |r|]; try discriminate Pa; try reflexivity.
          cbn. rewrite Req_bool_false by (intros ->; tauto). f_equal. unfold Rdiv. ring. }
        rewrite Q in P. discriminate. }
      destruct (W1 Q1') as (L1 & D1 & R1). destruct (W2 Q2') as (L2 & D2 & R2).
      assert (DL : xle (phi d2) (phi d1) = true).
      { rewrite D1, D2. apply (xround_mono D); destruct (phi q1) as [| |s1|], (phi q2) as [| |s2|]; cbn in *; try discriminate; auto. apply Rle_bool_true. destruct (Rle_bool_spec s2 s1); [lra|discriminate]. }
      assert (T0 : forall d, xle (XFin 1) d = true -> xlt (XFin 0) d = true).
      { intros [| |t|] Ht; cbn in Ht; try discriminate; auto. unfold xlt. cbn. destruct (Rle_bool_spec 1 t); [|discriminate]. rewrite Rle_bool_true, Rle_bool_false by lra. reflexivity. }
      rewrite R1, R2. assert (P01 : xle (XFin 0) (XFin 1) = true) by (apply Rle_bool_true; lra).
      apply (xround_mono D); [apply Nn; auto|apply Nn; auto|]. apply xdiv_pos; auto; apply Nn; auto. }
    assert (L' : o_le r1 r2 = true) by (now rewrite (d_le _ _ _ D)). rewrite (mk_proper HO) by exact L'. cbn [bind].
    apply blend_fractions_total; auto; unfold nonneg; cbn [alower aupper lo hi]; rewrite (d_le _ _ _ D), ?(d_zero _ _ _ D), ?(d_one _ _ _ D); auto.
  Qed.
  (** A share 1 / (1 + b/a) is NaN or in [0,1]. *)
  Lemma part (b a : N) : xle (XFin 0) (phi a) = true -> xle (XFin 0) (phi b) = true -> ~ (phi a = XFin 0 /\ phi b = XFin 0) ->
    exists q d r, n_div b a = Ret q /\ n_add n_one q = Ret d /\ n_div n_one d = Ret r
      /\ (phi a = XPinf /\ phi b = XPinf -> phi r = XNan) /\ (phi r = XNan \/ xle (XFin 0) (phi r) = true /\ xle (phi r) (XFin 1) = true).
  Proof.
    intros Ha Hb Z. assert (C : (phi a = XPinf /\ phi b = XPinf) \/ ~ (phi a = XPinf /\ phi b = XPinf)).
    { destruct (phi a); try (right; intros [K _]; discriminate K). destruct (phi b); try (right; intros [_ K]; discriminate K). auto. }
    destruct C as [[E1 E2]|C].
    - destruct (d_div _ _ _ D b a) as (q & Hq & Eq & _). destruct (d_add _ _ _ D n_one q) as (d & Hd & Ed). destruct (d_div _ _ _ D n_one d) as (r & Hr & Er & _).
      exists q, d, r. do 3 (split; [assumption|]). rewrite E1, E2 in Eq. specialize (Eq ltac:(discriminate)). cbn in Eq. rewrite Eq in Ed.
      assert (Ed' : phi d = XNan) by (rewrite Ed; destruct (phi n_one); reflexivity). rewrite Ed' in Er. specialize (Er ltac:(discriminate)).
      assert (R : phi r = XNan) by (rewrite Er; destruct (phi n_one); reflexivity). auto.
    - destruct (ratio b a Ha Hb C Z) as (q & Hq & Q & _). destruct (share q Q) as (d & r & Hd & Hr & B & B' & _). exists q, d, r. do 3 (split; [assumption|]). split; [tauto|auto].
  Qed.
  Lemma blend_linear_always a b x y s : aproper a -> aproper b -> aproper x -> aproper y -> nonneg (alower a) -> nonneg (alower b) ->
    n_add (alower a) (alower b) = Ret s -> o_lt n_zero s = true -> exists Z, iblend_linear dbg a b x y = Ret Z.
  Proof.
    intros Ha Hb Hx Hy Na Nb Hs Ps.
    assert (I : forall u v : N, (phi u = XPinf /\ phi v = XPinf) \/ ~ (phi u = XPinf /\ phi v = XPinf)).
    { intros u v. destruct (phi u); try (right; intros [K _]; discriminate K). destruct (phi v); try (right; intros [_ K]; discriminate K). auto. }
    assert (P0 : forall z : arg N, nonneg (alower z) -> xle (XFin 0) (phi (alower z)) = true) by (intros z Hz; unfold nonneg in Hz; now rewrite (d_le _ _ _ D), (d_zero _ _ _ D) in Hz).
    assert (P1 : forall z : arg N, aproper z -> xle (phi (alower z)) (phi (aupper z)) = true) by (intros z Hz; unfold aproper in Hz; now rewrite (d_le _ _ _ D) in Hz).
    assert (F : forall v : N, xle (XFin 0) (phi v) = true -> infinite v -> phi v = XPinf).
    { intros v Hv Hi. apply (infinite_phi D) in Hi as [E|E]; rewrite E in *; try discriminate Hv; reflexivity. }
    pose proof (P0 a Na) as A0. pose proof (P0 b Nb) as B0. pose proof (P1 a Ha) as A1. pose proof (P1 b Hb) as B1. pose proof (xle_trans _ _ _ A0 A1) as A2. pose proof (xle_trans _ _ _ B0 B1) as B2.
    destruct (I (alower a) (aupper b)) as [I1|I1]; [|destruct (I (aupper a) (alower b)) as [I2|I2]].
    3:{ apply (blend_linear_total a b x y s); auto; intros [K1 K2]; [apply I1|apply I2]; split; apply F; auto. }
    all: unfold iblend_linear; rewrite (aproper_assigned HO a Ha), (aproper_assigned HO b Hb), (aproper_assigned HO x Hx), (aproper_assigned HO y Hy); cbn [andb];
      replace (expects_debug dbg true) with (Ret tt) by (now destruct dbg); cbn [bind]; rewrite !nonneg_check by auto; rewrite (sum_check a b s) by auto; cbn [bind].
    all: destruct (part (aupper b) (alower a)) as (q1 & d1 & r1 & E1 & E2 & E3 & N1 & R1); auto;
      [try (intros [K1 K2]; destruct I1 as [I1 I1']; congruence); try (intros [K1 K2]; destruct I2 as [I2 I2']; rewrite I2', K2 in B1; discriminate B1)|].
    all: destruct (part (alower b) (aupper a)) as (q2 & d2 & r2 & F1 & F2 & F3 & N2 & R2); auto;
      [try (intros [K1 K2]; destruct I1 as [I1 I1']; rewrite I1, K1 in A1; discriminate A1); try (intros [K1 K2]; destruct I2 as [I2 I2']; congruence)|].
    all: rewrite E1; cbn [bind]; rewrite E2; cbn [bind]; rewrite E3; cbn [bind]; rewrite F1; cbn [bind]; rewrite F2; cbn [bind]; rewrite F3; cbn [bind].
    all: assert (L : o_lt r2 r1 = false) by (rewrite (d_lt _ _ _ D); first [rewrite (N1 I1); destruct (phi r2); reflexivity|rewrite (N2 I2); reflexivity]).
    all: assert (L0 : o_lt r1 n_zero = false) by (rewrite (d_lt _ _ _ D), (d_zero _ _ _ D); unfold xlt; destruct R1 as [R1|[R1 _]]; rewrite R1; [reflexivity|now rewrite andb_false_r]).
    all: assert (L1 : o_lt n_one r2 = false) by (rewrite (d_lt _ _ _ D), (d_one _ _ _ D); unfold xlt; destruct R2 as [R2|[_ R2]]; rewrite R2; [reflexivity|now rewrite andb_false_r]).
    all: unfold mk; rewrite L; cbn [negb expects bind]; apply blend_fractions_checked; auto; [cbn [aassigned]; unfold assigned; cbn [lo hi]; now rewrite L|now apply fraction_check_nan].
  Qed.
End Checks.

(** ** Exact real arithmetic *)
Lemma hull_R (P : real_num -> Prop) l u : (forall v, P v -> exists r, v = XFin r /\ l <= r <= u) -> P (XFin l) -> P (XFin u) -> is_hull P (RI l u).
Proof.
  intros H Hl Hu. assert (L : l <= u) by (destruct (H _ Hl) as (r & E & K); injection E as <-; lra). split; [|split].
  - intros v Hv. apply (real_el l u v). exact (H v Hv).
  - exists (XFin l). split; [exact Hl|]. apply xeq_iff. split; [reflexivity|discriminate].
  - exists (XFin u). split; [exact Hu|]. apply xeq_iff. split; [reflexivity|discriminate].
Qed.
Lemma Rdiv_cross a d a' d' : 0 < d -> 0 < d' -> a * d' <= a' * d -> a / d <= a' / d'.
Proof.
  intros H H' K. apply (Rmult_le_reg_r d); [auto|]. apply (Rmult_le_reg_r d'); [auto|]. unfold Rdiv.
  replace (a * / d * d * d') with (a * d') by (field; lra). replace (a' * / d' * d * d') with (a' * d) by (field; lra). exact K.
Qed.
Lemma share_mono u v u' v' : 0 <= u -> u <= u' -> 0 <= v' -> v' <= v -> 0 < u + v -> 0 < u' + v' -> u / (u + v) <= u' / (u' + v').
Proof. intros. apply Rdiv_cross; auto. nra. Qed.
Lemma share_unit u v : 0 <= u -> 0 <= v -> 0 < u + v -> 0 <= u / (u + v) <= 1.
Proof.
  intros. split; [apply Rmult_le_pos; [auto|left; now apply Rinv_0_lt_compat]|].
  apply (Rmult_le_reg_r (u + v)); [auto|]. unfold Rdiv. rewrite Rmult_assoc, Rinv_l by lra. lra.
Qed.
Lemma sweights_real dbg u v : 0 <= u -> 0 <= v -> 0 < u + v ->
  @sweights real_num dbg (XFin u) (XFin v) = Ret (XFin (u / (u + v)) : real_num, XFin (v / (u + v)) : real_num).
Proof.
  intros Hu Hv Hs. unfold sweights. change (@n_zero real_num) with (XFin 0). change (@n_add real_num (XFin u) (XFin v)) with (Ret (XFin (u + v) : real_num)). cbn [bind].
  replace (@o_le real_num (XFin 0) (XFin u)) with true by (symmetry; now apply real_le). replace (@o_le real_num (XFin 0) (XFin v)) with true by (symmetry; now apply real_le).
  replace (@o_lt real_num (XFin 0) (XFin (u + v))) with true by (symmetry; now apply real_lt).
  replace (check dbg (Ret true)) with (Ret tt) by (now destruct dbg). cbn [bind n_div real_num xdiv]. rewrite Req_bool_false by lra. reflexivity.
Qed.
Lemma bounds_proper a l u : bounds a l u -> aproper a.
Proof. intros H. apply bounds_spans in H. exact (spans_aproper _ _ _ H). Qed.
Lemma real_sum_check dbg a b al au bl bu : bounds a al au -> bounds b bl bu -> 0 <= al -> 0 <= bl -> 0 < al + bl ->
  check dbg (always_nonneg dbg a) = Ret tt /\ check dbg (always_nonneg dbg b) = Ret tt /\ check dbg (always_positive_sum dbg a b) = Ret tt.
Proof.
  intros Ba Bb Ha Hb Hs. pose proof Ba as (E1 & E2 & La). pose proof Bb as (E3 & E4 & Lb). pose proof (bounds_proper _ _ _ Ba) as Pa. pose proof (bounds_proper _ _ _ Bb) as Pb.
  assert (Na : nonneg (alower a)) by (unfold nonneg; rewrite E1; now apply real_le). assert (Nb : nonneg (alower b)) by (unfold nonneg; rewrite E3; now apply real_le).
  split; [now apply (nonneg_check real_denotes)|]. split; [now apply (nonneg_check real_denotes)|].
  apply (sum_check real_denotes dbg a b (XFin (al + bl))); auto; [now rewrite E1, E3|]. now apply real_lt.
Qed.
Definition weight_pairs (dbg : bool) (a b : arg real_num) (p : real_num * real_num) : Prop :=
  exists u v, ael a u /\ ael b v /\ sweights dbg u v = Ret p.
Lemma real_weights dbg a b al au bl bu : bounds a al au -> bounds b bl bu -> 0 <= al -> 0 <= bl -> 0 < al + bl ->
  exists A B, iweights dbg a b = Ret (A, B)
    /\ is_hull (fun z => exists w, weight_pairs dbg a b (z, w)) A /\ is_hull (fun w => exists z, weight_pairs dbg a b (z, w)) B
    /\ subset A (RI 0 1) /\ subset B (RI 0 1).
Proof.
  intros Ba Bb Ha Hb Hs. destruct (real_sum_check dbg _ _ _ _ _ _ Ba Bb Ha Hb Hs) as (C1 & C2 & C3). pose proof Ba as (E1 & E2 & La). pose proof Bb as (E3 & E4 & Lb).
  unfold iweights. rewrite (aassigned_bounds _ _ _ Ba), (aassigned_bounds _ _ _ Bb), C1, C2, C3. replace (expects_debug dbg (true && true)) with (Ret tt) by (now destruct dbg). cbn [bind].
  rewrite E1, E2, E3, E4. cbn [bind n_add n_div real_num xadd xdiv]. rewrite !Req_bool_false by lra. cbn [bind].
  pose proof (share_mono al bu au bl Ha La Hb Lb ltac:(lra) ltac:(lra)) as L1. pose proof (share_mono bl au bu al Hb Lb Ha La ltac:(lra) ltac:(lra)) as L2. rewrite (Rplus_comm bl), (Rplus_comm bu) in L2.
  rewrite !real_mk by auto. cbn [bind]. eexists _, _. split; [reflexivity|].
  assert (G : forall p q, al <= p <= au -> bl <= q <= bu -> weight_pairs dbg a b (XFin (p / (p + q)), XFin (q / (p + q)))).
  { intros p q Hp Hq. exists (XFin p), (XFin q). split; [apply (real_ael _ _ _ _ Ba); eauto|]. split; [apply (real_ael _ _ _ _ Bb); eauto|]. apply sweights_real; lra. }
  assert (K : forall z w, weight_pairs dbg a b (z, w) -> exists p q, al <= p <= au /\ bl <= q <= bu /\ z = XFin (p / (p + q)) /\ w = XFin (q / (p + q))).
  { intros z w (p & q & Hp & Hq & E). apply (real_ael _ _ _ _ Ba) in Hp as (p' & -> & Hp). apply (real_ael _ _ _ _ Bb) in Hq as (q' & -> & Hq). rewrite sweights_real in E by lra. injection E as <- <-. eauto 7. }
  split; [|split; [|split]].
  - apply hull_R; [|eexists; apply (G al bu); lra|eexists; apply (G au bl); lra].
    intros z (w & Hz). apply K in Hz as (p & q & Hp & Hq & -> & _). eexists. split; [reflexivity|]. split; apply share_mono; lra.
  - apply hull_R; [|eexists; apply (G au bl); lra|eexists; apply (G al bu); lra].
    intros w (z & Hz). apply K in Hz as (p & q & Hp & Hq & _ & ->). eexists. split; [reflexivity|]. rewrite (Rplus_comm p), (Rplus_comm au), (Rplus_comm al). split; apply share_mono; lra.
  - intros v Hv. apply (real_el _ _ v) in Hv as (r & -> & Hr). apply (real_el 0 1 (XFin r)). exists r. split; [reflexivity|].
    pose proof (share_unit al bu ltac:(lra) ltac:(lra) ltac:(lra)). pose proof (share_unit au bl ltac:(lra) ltac:(lra) ltac:(lra)). lra.
  - intros v Hv. apply (real_el _ _ v) in Hv as (r & -> & Hr). apply (real_el 0 1 (XFin r)). exists r. split; [reflexivity|].
    pose proof (share_unit bl au ltac:(lra) ltac:(lra) ltac:(lra)). pose proof (share_unit bu al ltac:(lra) ltac:(lra) ltac:(lra)). rewrite (Rplus_comm bl), (Rplus_comm bu) in *. lra.
Qed.

Definition mixed f x y : R := f * x + (1 - f) * y.
Lemma mixed_bounds fl fh xl xh yl yh f x y : 0 <= fl -> fl <= f <= fh -> fh <= 1 -> xl <= x <= xh -> yl <= y <= yh ->
  mixed (if Rle_bool yl xl then fl else fh) xl yl <= mixed f x y <= mixed (if Rle_bool yh xh then fh else fl) xh yh.
Proof. intros. unfold mixed. split; [destruct (Rle_bool_spec yl xl)|destruct (Rle_bool_spec yh xh)]; nra. Qed.
Lemma real_blend dbg f x y fl fh xl xh yl yh : bounds f fl fh -> bounds x xl xh -> bounds y yl yh -> 0 <= fl -> fh <= 1 ->
  iblend_fractions dbg f x y = Ret (RI (mixed (if Rle_bool yl xl then fl else fh) xl yl) (mixed (if Rle_bool yh xh then fh else fl) xh yh)).
Proof.
  intros Bf Bx By Hf0 Hf1. pose proof Bf as (E1 & E2 & Lf). pose proof Bx as (E3 & E4 & Lx). pose proof By as (E5 & E6 & Ly).
  unfold iblend_fractions. rewrite (aassigned_bounds _ _ _ Bf), (aassigned_bounds _ _ _ Bx), (aassigned_bounds _ _ _ By). cbn [andb]. replace (expects_debug dbg true) with (Ret tt) by (now destruct dbg). cbn [bind].
  rewrite (fraction_check real_denotes dbg f (bounds_proper _ _ _ Bf)); [|unfold nonneg; rewrite E1; now apply real_le|rewrite E2; now apply real_le]. cbn [bind].
  rewrite E1, E2, E3, E4, E5, E6. change (@n_one real_num) with (XFin 1).
  change (@o_le real_num (XFin yl) (XFin xl)) with (Rle_bool yl xl). change (@o_le real_num (XFin yh) (XFin xh)) with (Rle_bool yh xh).
  pose proof (mixed_bounds fl fh xl xh yl yh fl xl yl Hf0 ltac:(lra) Hf1 ltac:(lra) ltac:(lra)) as M. unfold mixed, Rminus in *.
  destruct (Rle_bool yl xl), (Rle_bool yh xh); cbn [bind n_add n_sub n_mul real_num xadd xmul xopp xsub]; rewrite real_fub, Rmin_left, Rmax_right by lra; reflexivity.
Qed.
Definition blends (dbg : bool) (f x y : arg real_num) (z : real_num) : Prop :=
  exists t u v, ael f t /\ ael x u /\ ael y v /\ sblend_fractions dbg t u v = Ret z.
Definition weighted_blends (dbg : bool) (a b x y : arg real_num) (z : real_num) : Prop :=
  exists p q u v, ael a p /\ ael b q /\ ael x u /\ ael y v /\ sblend_linear dbg p q u v = Ret z.
Lemma sblend_real dbg f x y : 0 <= f <= 1 -> @sblend_fractions real_num dbg (XFin f) (XFin x) (XFin y) = Ret (XFin (mixed f x y) : real_num).
Proof.
  intros H. unfold sblend_fractions. change (@n_one real_num) with (XFin 1). change (@n_zero real_num) with (XFin 0).
  replace (@o_le real_num (XFin 0) (XFin f)) with true by (symmetry; apply real_le; lra). replace (@o_le real_num (XFin f) (XFin 1)) with true by (symmetry; apply real_le; lra).
  replace (expects_debug dbg (true && true)) with (Ret tt) by (now destruct dbg). reflexivity.
Qed.
Lemma sblend_linear_real dbg a b x y : 0 <= a -> 0 <= b -> 0 < a + b -> @sblend_linear real_num dbg (XFin a) (XFin b) (XFin x) (XFin y) = Ret (XFin (mixed (a / (a + b)) x y) : real_num).
Proof. intros. unfold sblend_linear. rewrite sweights_real by auto. cbn. f_equal. f_equal. unfold mixed. field. lra. Qed.
Lemma sblend_quadratic_real dbg a b x y : 0 <= a -> 0 <= b -> 0 < a + b ->
  sblend_quadratic real_math dbg (XFin a : real_num) (XFin b) (XFin x) (XFin y) = Ret (XFin (sqrt ((a / (a + b) * x) ^ 2 + (b / (a + b) * y) ^ 2)) : real_num).
Proof.
  intros. unfold sblend_quadratic. rewrite sweights_real by auto. cbn. f_equal. rewrite Rlt_bool_false.
  - f_equal. f_equal. field. lra.
  - apply Rplus_le_le_0_compat; apply Rle_0_sqr.
Qed.
Lemma real_blend_fractions dbg f x y fl fh xl xh yl yh : bounds f fl fh -> bounds x xl xh -> bounds y yl yh -> 0 <= fl -> fh <= 1 ->
  exists Z, iblend_fractions dbg f x y = Ret Z /\ is_hull (blends dbg f x y) Z.
Proof.
  intros Bf Bx By Hf0 Hf1. pose proof Bf as (_ & _ & Lf). pose proof Bx as (_ & _ & Lx). pose proof By as (_ & _ & Ly). rewrite (real_blend dbg f x y _ _ _ _ _ _ Bf Bx By Hf0 Hf1). eexists. split; [reflexivity|].
  assert (G : forall p q r, fl <= p <= fh -> xl <= q <= xh -> yl <= r <= yh -> blends dbg f x y (XFin (mixed p q r))).
  { intros p q r Hp Hq Hr. exists (XFin p), (XFin q), (XFin r). split; [apply (real_ael _ _ _ _ Bf); eauto|]. split; [apply (real_ael _ _ _ _ Bx); eauto|]. split; [apply (real_ael _ _ _ _ By); eauto|]. apply sblend_real; lra. }
  apply hull_R; [|apply G; [destruct (Rle_bool yl xl)| |]; lra|apply G; [destruct (Rle_bool yh xh)| |]; lra].
  intros v (p & q & r & Hp & Hq & Hr & E). apply (real_ael _ _ _ _ Bf) in Hp as (p' & -> & Hp). apply (real_ael _ _ _ _ Bx) in Hq as (q' & -> & Hq). apply (real_ael _ _ _ _ By) in Hr as (r' & -> & Hr).
  rewrite sblend_real in E by lra. injection E as <-. eexists. split; [reflexivity|]. apply mixed_bounds; lra.
Qed.
Lemma share_div a b : 0 <= a -> 0 <= b -> 0 < a + b -> (q <- @n_div real_num (XFin b) (XFin a) ;; d <- n_add n_one q ;; n_div n_one d) = Ret (XFin (a / (a + b)) : real_num).
Proof.
  intros Ha Hb Hs. cbn [bind n_div real_num xdiv]. destruct (Req_bool_spec a 0) as [->|N].
  - unfold xsinf. destruct (Rcompare_spec b 0); try lra. cbn [bind n_add n_div n_one real_num xadd xdiv]. replace (0 / (0 + b)) with 0 by (unfold Rdiv; ring). reflexivity.
  - cbn [bind n_add n_div n_one real_num xadd xdiv]. assert (0 <= b / a) by (apply Rmult_le_pos; [auto|left; apply Rinv_0_lt_compat; lra]). rewrite Req_bool_false by lra. replace (1 / (1 + b / a)) with (a / (a + b)) by (field; lra). reflexivity.
Qed.
Lemma real_blend_linear dbg a b x y al au bl bu xl xh yl yh : bounds a al au -> bounds b bl bu -> bounds x xl xh -> bounds y yl yh -> 0 <= al -> 0 <= bl -> 0 < al + bl ->
  exists Z, iblend_linear dbg a b x y = Ret Z /\ is_hull (weighted_blends dbg a b x y) Z.
Proof.
  intros Ba Bb Bx By Ha Hb Hs. destruct (real_sum_check dbg _ _ _ _ _ _ Ba Bb Ha Hb Hs) as (C1 & C2 & C3).
  pose proof Ba as (E1 & E2 & La). pose proof Bb as (E3 & E4 & Lb). pose proof Bx as (_ & _ & Lx). pose proof By as (_ & _ & Ly).
  unfold iblend_linear. rewrite (aassigned_bounds _ _ _ Ba), (aassigned_bounds _ _ _ Bb), (aassigned_bounds _ _ _ Bx), (aassigned_bounds _ _ _ By), C1, C2, C3. cbn [andb].
  replace (expects_debug dbg true) with (Ret tt) by (now destruct dbg). cbn [bind]. rewrite E1, E2, E3, E4.
  pose proof (share_div al bu ltac:(lra) ltac:(lra) ltac:(lra)) as S1. pose proof (share_div au bl ltac:(lra) ltac:(lra) ltac:(lra)) as S2.
  destruct (@n_div real_num (XFin bu) (XFin al)) as [q1| | | |]; try discriminate S1. cbn [bind] in *. destruct (n_add n_one q1) as [d1| | | |]; try discriminate S1. cbn [bind] in *. rewrite S1. cbn [bind].
  destruct (@n_div real_num (XFin bl) (XFin au)) as [q2| | | |]; try discriminate S2. cbn [bind] in *. destruct (n_add n_one q2) as [d2| | | |]; try discriminate S2. cbn [bind] in *. rewrite S2. cbn [bind].
  pose proof (share_mono al bu au bl Ha La Hb Lb ltac:(lra) ltac:(lra)) as L. rewrite real_mk by exact L. cbn [bind].
  pose proof (share_unit al bu ltac:(lra) ltac:(lra) ltac:(lra)) as U1. pose proof (share_unit au bl ltac:(lra) ltac:(lra) ltac:(lra)) as U2.
  assert (Bf : bounds (Iv (RI (al / (al + bu)) (au / (au + bl)))) (al / (al + bu)) (au / (au + bl))) by (split; [reflexivity|]; split; [reflexivity|exact L]).
  rewrite (real_blend dbg _ x y _ _ _ _ _ _ Bf Bx By) by lra. eexists. split; [reflexivity|].
  assert (G : forall p q u v, al <= p <= au -> bl <= q <= bu -> xl <= u <= xh -> yl <= v <= yh -> weighted_blends dbg a b x y (XFin (mixed (p / (p + q)) u v))).
  { intros p q u v Hp Hq Hu Hv. exists (XFin p), (XFin q), (XFin u), (XFin v). split; [apply (real_ael _ _ _ _ Ba); eauto|]. split; [apply (real_ael _ _ _ _ Bb); eauto|].
    split; [apply (real_ael _ _ _ _ Bx); eauto|]. split; [apply (real_ael _ _ _ _ By); eauto|]. apply sblend_linear_real; lra. }
  apply hull_R; [|destruct (Rle_bool yl xl); apply G; lra|destruct (Rle_bool yh xh); apply G; lra].
  intros z (p & q & u & v & Hp & Hq & Hu & Hv & E). apply (real_ael _ _ _ _ Ba) in Hp as (p' & -> & Hp). apply (real_ael _ _ _ _ Bb) in Hq as (q' & -> & Hq).
  apply (real_ael _ _ _ _ Bx) in Hu as (u' & -> & Hu). apply (real_ael _ _ _ _ By) in Hv as (v' & -> & Hv). rewrite sblend_linear_real in E by lra. injection E as <-.
  eexists. split; [reflexivity|]. apply mixed_bounds; try lra. split; apply share_mono; lra.
Qed.

Lemma fp_blend_fractions {N M} (H : fp_math N M) dbg (f x y : arg N) : aproper f -> aproper x -> aproper y -> nonneg (alower f) -> o_le (aupper f) n_one = true ->
  exists Z, iblend_fractions dbg f x y = Ret Z.
Proof. destruct (fp_math_denotes N M H) as (rd & phi & D & _). apply (blend_fractions_total D). Qed.
Lemma fp_blend_linear {N M} (H : fp_math N M) dbg (a b x y : arg N) s : aproper a -> aproper b -> aproper x -> aproper y -> nonneg (alower a) -> nonneg (alower b) ->
  n_add (alower a) (alower b) = Ret s -> o_lt n_zero s = true -> exists Z, iblend_linear dbg a b x y = Ret Z.
Proof. destruct (fp_math_denotes N M H) as (rd & phi & D & HM). apply (blend_linear_always D HM). Qed.

(** a = [1, 1 + 2^-52], b = 2^-53 *)
Definition heavy : arg float64 := Iv (Ivl (f64 1 0) (f64 (2 ^ 52 + 1) (-52))).
Definition light : arg float64 := Sc (f64 1 (-53)).
Lemma weights_fail dbg : exists a b : arg float64, aproper a /\ aproper b /\ nonneg (alower a) /\ nonneg (alower b) /\ finite (aupper a) /\ finite (aupper b)
  /\ (exists s, n_add (alower a) (alower b) = Ret s /\ o_lt n_zero s = true) /\ iweights dbg a b = FailFast.
Proof.
  exists heavy, light. split; [reflexivity|]. split; [reflexivity|]. split; [reflexivity|]. split; [reflexivity|].
  split; [apply float_finite; reflexivity|]. split; [apply float_finite; reflexivity|]. split; [apply ret_witness; vm_compute; reflexivity|].
  destruct dbg; vm_compute; reflexivity.
Qed.
