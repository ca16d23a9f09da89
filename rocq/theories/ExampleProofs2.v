(** The examples simple1.cpp and simple3.cpp. *)
From Coq Require Import Reals Bool List Arith ZArith Lia Lra Psatz.
From Verif Require Import Outcome SetModel Spec SetProofs Num NumLaws IntervalModel IvlSpec IvlProofs ArithProofs
  ConstrainModel CondSpec ConstrainProofs3 ConstrainProofs5 MathModel MathSpec MathProofs MathWrap LangModel LangSpec ExampleModel ExampleProofs XReal RealNum TrigProofs.
Import ListNotations.

(** ** simple3.cpp *)
Section Simple3.
  Context {N : num} {M : math N} (HM : fp_math N M) (HN : num_laws N) (dbg : bool).
  Let HO := nl_ord N HN.
  Implicit Types (X Z : ivl N) (x v : N).

  Lemma simple3_scalar x : ok x -> srun (Some M) dbg [x] [] simple3_s None =
    (if o_le n_zero x then v <- ssqrt M dbg x ;; Ret (Some v) else Ret (Some n_zero)).
  Proof.
    intros Hx. unfold simple3_s. cbn. destruct (o_le n_zero x) eqn:E; cbn; [|reflexivity]. unfold scalar_constrain. cbn.
    unfold ssqrt. rewrite E. now destruct dbg.
  Qed.
  Lemma simple3_value x : ~ nan x -> exists v, srun (Some M) dbg [x] [] simple3_s None = Ret (Some v)
    /\ (o_le n_zero x = true -> v = m_sqrt M x) /\ (o_lt x n_zero = true -> v = n_zero).
  Proof.
    intros Hx. assert (Ho : ok x) by (destruct (ok_dec HN x) as [K|K]; [exact K|destruct Hx; exact K]). rewrite (simple3_scalar x Ho). destruct (o_le n_zero x) eqn:E.
    - unfold ssqrt. rewrite E. exists (m_sqrt M x). split; [now destruct dbg|]. split; [reflexivity|]. intros K. exfalso. clear - HO E K. ord HO.
    - exists n_zero. split; [reflexivity|]. split; [discriminate|reflexivity].
  Qed.
  Lemma constrain_ge_number (v : bset) X (b : N) : proper X -> bcontains v true = true -> o_le b (hi X) = true ->
    constrain dbg 0 X (CLe v (OpVal (Sc b)) (OpId 0 X)) = Ret (Ivl (omax b (lo X)) (hi X)).
  Proof.
    unfold proper. intros HX Hv H.
    unfold constrain. cbn [dconstrain op_is Nat.eqb andb orb negb expects bind op_arg alower aupper]. rewrite Hv, (debug_true dbg _ H). cbn [bind].
    rewrite (mk_proper HO); [reflexivity|]. clear - HO H HX. unfold omax. destruct (o_lt b (lo X)); ord HO.
  Qed.
  Lemma simple3_hull X : proper X -> exists Z, LangModel.irun (Some M) dbg [Iv X] [] simple3_s ivl_default = Ret Z
    /\ is_hull (fun v => exists x, el X x /\ srun (Some M) dbg [x] [] simple3_s None = Ret (Some v)) Z.
  Proof.
    intros HX. assert (Hz : ok (@n_zero N)) by exact (ok_zero HN).
    assert (Sc : forall v, (exists x, el X x /\ srun (Some M) dbg [x] [] simple3_s None = Ret (Some v)) <->
      (exists x, el X x /\ o_le n_zero x = true /\ ssqrt M dbg x = Ret v) \/ (v = n_zero /\ exists x, el X x /\ o_lt x n_zero = true)).
    { intros v. split.
      - intros (x & Hx & E). rewrite simple3_scalar in E by exact (el_ok HO X x Hx). destruct (o_le n_zero x) eqn:Ez.
        + left. exists x. split; [exact Hx|]. split; [exact Ez|]. destruct (ssqrt M dbg x); cbn in E; congruence.
        + right. split; [congruence|]. exists x. split; [exact Hx|]. pose proof (el_ok HO X x Hx) as Ho. unfold ok in *. clear - HO Ho Hz Ez. ord HO.
      - intros [(x & Hx & Ez & E)|(-> & x & Hx & Ez)]; exists x; (split; [exact Hx|]); rewrite simple3_scalar by exact (el_ok HO X x Hx).
        + now rewrite Ez, E.
        + destruct (o_le n_zero x) eqn:K; [|reflexivity]. exfalso. clear - HO Ez K. ord HO. }
    unfold simple3_s. cbn -[bassign bnot c_ge cpossible cpossible_not constrain isqrt simple3_s]. unfold c_ge, rel_geq.
    cbn [op_arg]. rewrite (rel_pre_ok HO dbg (Iv X) (IntervalModel.Sc n_zero) HX Hz). cbn [bind].
    assert (PQ : o_le n_zero (hi X) || o_lt (lo X) n_zero = true).
    { apply orb_true_iff. destruct (o_lt (lo X) n_zero) eqn:E; [now right|left]. unfold ok in Hz. clear - HO HX Hz E. unfold proper in *. ord HO. }
    destruct (two_values dbg _ _ PQ) as (V1 & V2 & n & En & V3 & V4). unfold compare_leq. cbn [alower aupper]. set (v := if o_lt (lo X) n_zero then _ else _) in *.
    cbn [cpossible cpossible_not cset]. unfold possibly, possibly_not. cbn [c_not]. rewrite En, V1, V2. cbn [bind].
    set (P := fun v => exists x, el X x /\ o_le n_zero x = true /\ ssqrt M dbg x = Ret v) in *.
    assert (Neg : o_lt (lo X) n_zero = true <-> exists x, el X x /\ o_lt x n_zero = true).
    { split; [intros E; exists (lo X); split; [exact (el_lower HO X HX)|exact E]|]. intros (x & [Hx _] & E). clear - HO Hx E. ord HO. }
    assert (First : o_le n_zero (hi X) = true -> exists R, (Z <- constrain dbg 0 X (CLe v (OpVal (IntervalModel.Sc n_zero)) (OpId 0 X)) ;;
        x <- (R <- isqrt M dbg Z ;; Ret (Iv R)) ;; free_assign_partial ivl_default (as_ivl x)) = Ret R /\ is_hull P R).
    { intros E. assert (Hv : bcontains v true = true) by (rewrite V1; exact E). rewrite (constrain_ge_number v X n_zero HX Hv E). cbn [bind].
      set (Y := Ivl (omax n_zero (lo X)) (hi X)).
      assert (HY : proper Y /\ nonneg (lo Y)).
      { unfold Y, proper, nonneg, omax in *. cbn. clear - HO HX E Hz. unfold ok in Hz. destruct (o_lt n_zero (lo X)) eqn:K; split; ord HO. }
      destruct HY as [HY HY0]. destruct (fp_sqrt HM dbg Y HY HY0) as (S & -> & HS). cbn [bind as_ivl].
      destruct (assign_default_ivl HN S (is_hull_proper HO _ _ HS)) as (R & ER & HR). exists R. split; [exact ER|].
      assert (K : forall w, img1 (ssqrt M dbg) Y w -> P w).
      { intros w (x & [H1 H2] & Ex). exists x. unfold Y in H1, H2. cbn in H1, H2. unfold proper in HX.
        split; [split; cbn; clear - HO H1 H2 HX; unfold omax in *; destruct (o_lt n_zero (lo X)) eqn:K; ord HO|]. split; [|exact Ex].
        unfold ok in Hz. clear - HO H1 Hz HX. unfold omax in *; destruct (o_lt n_zero (lo X)) eqn:K; ord HO. }
      assert (K' : forall w, P w -> img1 (ssqrt M dbg) Y w).
      { intros w (x & [H1 H2] & Hz' & Ex). exists x. split; [|exact Ex]. unfold Y. split; cbn; [|exact H2]. clear - HO H1 Hz'. unfold omax. destruct (o_lt n_zero (lo X)); ord HO. }
      destruct HS as (S1 & (s & Hs & Es) & (s' & Hs' & Es')), HR as (R1 & (r & Hr & Er) & (r' & Hr' & Er')). split; [|split].
      - intros w Hw. apply R1, S1, K', Hw.
      - exists s. split; [exact (K _ Hs)|]. assert (G : el R s) by (apply R1, S1, Hs). destruct Hr as [Hr _], G as [G _]. clear - HO Hr G Es Er. ord HO.
      - exists s'. split; [exact (K _ Hs')|]. assert (G : el R s') by (apply R1, S1, Hs'). destruct Hr' as [_ Hr'], G as [_ G]. clear - HO Hr' G Es' Er'. ord HO. }
    assert (Z0 : proper (ivl_of (@n_zero N))) by exact Hz.
    destruct (o_le n_zero (hi X)) eqn:EP.
    - destruct (First eq_refl) as (R & ER & HR). rewrite ER. cbn [bind]. destruct (o_lt (lo X) n_zero) eqn:EQ.
      + cbn [as_ivl]. destruct (assign_more_ivl HN P (ivl_of n_zero) R HR Z0) as (Z & EZ & HZ). exists Z. split; [exact EZ|].
        destruct HZ as (Z1 & (s & Hs & Es) & (s' & Hs' & Es')). pose proof (proj1 Neg eq_refl) as Ng.
        assert (Eq : forall w, el (ivl_of (@n_zero N)) w -> o_eq w n_zero = true) by (intros w [W1 W2]; unfold ivl_of in W1, W2; cbn in W1, W2; clear - HO W1 W2; ord HO).
        split; [|split].
        * intros w Hw. apply Sc in Hw as [Hw|[-> _]]; apply Z1; [now left|right; split; exact Hz].
        * destruct Hs as [Hs|Hs]; [exists s; split; [apply Sc; now left|exact Es]|]. exists n_zero. split; [apply Sc; now right|]. apply Eq in Hs. clear - HO Hs Es. ord HO.
        * destruct Hs' as [K|K]; [exists s'; split; [apply Sc; now left|exact Es']|]. exists n_zero. split; [apply Sc; now right|]. apply Eq in K. clear - HO K Es'. ord HO.
      + exists R. split; [reflexivity|]. apply (is_hull_ext P); [|exact HR]. intros w. rewrite Sc. split; [now left|]. intros [H|[_ H]]; [exact H|]. apply Neg in H. discriminate.
    - cbn [orb] in PQ. rewrite PQ. cbn [bind as_ivl]. destruct (assign_default_ivl HN (ivl_of n_zero) Z0) as (Z & EZ & HZ). exists Z. split; [exact EZ|].
      assert (Eq : forall w, el (ivl_of (@n_zero N)) w -> o_eq w n_zero = true) by (intros w [W1 W2]; unfold ivl_of in W1, W2; cbn in W1, W2; clear - HO W1 W2; ord HO).
      destruct HZ as (Z1 & (s & Hs & Es) & (s' & Hs' & Es')). apply Eq in Hs, Hs'.
      assert (Only : forall w, (exists x, el X x /\ srun (Some M) dbg [x] [] simple3_s None = Ret (Some w)) -> w = n_zero).
      { intros w Hw. apply Sc in Hw as [(x & [_ H2] & H3 & _)|[-> _]]; [|reflexivity]. exfalso. clear - HO H2 H3 EP. ord HO. }
      split; [|split].
      + intros w Hw. rewrite (Only w Hw). apply Z1. split; exact Hz.
      + exists n_zero. split; [apply Sc; right; split; [reflexivity|apply Neg; exact PQ]|]. clear - HO Hs Es. ord HO.
      + exists n_zero. split; [apply Sc; right; split; [reflexivity|apply Neg; exact PQ]|]. clear - HO Hs' Es'. ord HO.
  Qed.
End Simple3.

(** ** simple1.cpp, in exact arithmetic *)
Open Scope R_scope.
Notation RF r := (XFin r : real_num).
Lemma real_pre dbg (x y : arg real_num) : aproper x -> aproper y -> expects_debug dbg (aassigned x && aassigned y) = Ret tt.
Proof. exact (pre_ok real_laws dbg x y). Qed.
Lemma real_sub_number dbg a b c : a <= b -> isub dbg (Iv (RI a b)) (Sc (RF c)) = Ret (RI (a - c) (b - c)).
Proof.
  intros H. unfold isub. rewrite real_pre by (apply real_le; lra). cbn -[mk xadd]. unfold is_ninf, is_pinf. cbn -[mk]. apply real_mk. lra.
Qed.
Lemma real_sub dbg a b c d : a <= b -> c <= d -> isub dbg (Iv (RI a b)) (Iv (RI c d)) = Ret (RI (a - d) (b - c)).
Proof.
  intros H H'. unfold isub. rewrite real_pre by (apply real_le; lra). cbn -[mk xadd]. unfold is_ninf, is_pinf. cbn -[mk]. apply real_mk. lra.
Qed.
Lemma real_twice dbg a b : a <= b -> imul dbg (Sc (RF 2)) (Iv (RI a b)) = Ret (RI (2 * a) (2 * b)).
Proof.
  intros H. unfold imul. rewrite real_pre by (apply real_le; lra). cbn -[mk hull2 acontains]. unfold is_ninf, is_pinf. cbn -[mk hull2 acontains xmul]. rewrite andb_false_r. cbn -[mk hull2 xmul].
  unfold hull2. cbn [xmul]. rewrite real_omin, real_omax, Rmin_left, Rmax_right by lra. apply real_mk. lra.
Qed.
Lemma real_square dbg a b : a <= b -> exists l u, isquare dbg (RI a b) = Ret (RI l u) /\ range (fun x => x * x) a b l u.
Proof.
  intros H. unfold isquare. rewrite (pre1_ok real_laws dbg (RI a b)) by now apply real_le. cbn [bind lo hi].
  change (@n_mul real_num (XFin a) (XFin a)) with (Ret (RF (a * a))). change (@n_mul real_num (XFin b) (XFin b)) with (Ret (RF (b * b))). cbn [bind].
  change (@n_zero real_num) with (RF 0). rewrite real_omin, real_omax.
  destruct (o_le (RF a) (RF 0) && o_le (RF 0) (RF b)) eqn:E.
  - apply andb_true_iff in E as [E1%real_le E2%real_le]. cbn [bind]. rewrite real_mk by (eapply Rle_trans; [|apply Rmax_l]; nra).
    eexists _, _. split; [reflexivity|]. split; [|split].
    + intros x Hx. split; [nra|]. destruct (Rle_or_lt x 0); [eapply Rle_trans; [|apply Rmax_l]|eapply Rle_trans; [|apply Rmax_r]]; nra.
    + exists 0. split; [lra|ring].
    + destruct (Rmax_case (a * a) (b * b) (fun m => m = a * a \/ m = b * b)) as [-> | ->]; auto; [exists a|exists b]; split; auto; lra.
  - cbn [bind]. assert (S : 0 < a \/ b < 0).
    { destruct (Rle_or_lt a 0) as [A|A]; [|now left]. destruct (Rle_or_lt 0 b) as [B|B]; [|now right]. apply real_le in A, B. rewrite A, B in E. discriminate. }
    rewrite real_mk by (eapply Rle_trans; [apply Rmin_l|apply Rmax_l]). eexists _, _. split; [reflexivity|]. destruct S as [S|S].
    + rewrite Rmin_left, Rmax_right by nra. apply (range_inc (fun x => x * x)); [exact H|]. intros; nra.
    + rewrite Rmin_right, Rmax_left by nra. apply (range_dec (fun x => x * x)); [exact H|]. intros; nra.
Qed.
Lemma simple1_scalar dbg r : seval None dbg [RF r] (f1 (RF 2)) = Ret (RF (r * r - 2 * r)) /\ seval None dbg [RF r] f2 = Ret (RF (r * r - 2 * r)).
Proof. split; cbn; f_equal; f_equal; ring. Qed.
Lemma simple1_ranges dbg a b : a <= b -> exists l1 u1 l2 u2,
  ieval None dbg [Iv (RI a b)] (f1 (RF 2)) = Ret (Iv (RI l1 u1)) /\ ieval None dbg [Iv (RI a b)] f2 = Ret (Iv (RI l2 u2))
  /\ range (fun x => x * x - 2 * x) a b l2 u2
  /\ (forall x y, a <= x <= b -> a <= y <= b -> l1 <= x * x - 2 * y <= u1)
  /\ (exists x y, a <= x <= b /\ a <= y <= b /\ x * x - 2 * y = l1) /\ (exists x y, a <= x <= b /\ a <= y <= b /\ x * x - 2 * y = u1).
Proof.
  intros H. destruct (real_square dbg a b H) as (l & u & E & (R1 & (xl & Hxl & El) & (xu & Hxu & Eu))).
  destruct (real_square dbg (a - 1) (b - 1) ltac:(lra)) as (l' & u' & E' & (R1' & (xl' & Hxl' & El') & (xu' & Hxu' & Eu'))).
  exists (l - 2 * b), (u - 2 * a), (l' - 1), (u' - 1). split; [|split].
  - unfold f1. cbn [ieval ilookup nth_error bind lift1 iun lift2 ibin]. rewrite E. cbn [bind lift2 ibin]. rewrite (real_twice dbg a b H). cbn [bind lift2 ibin].
    rewrite real_sub by (try lra; specialize (R1 a ltac:(lra)); lra). reflexivity.
  - unfold f2. cbn [ieval ilookup nth_error bind lift1 iun lift2 ibin]. change (@n_one real_num) with (RF 1). rewrite real_sub_number by exact H. cbn [bind lift1 iun].
    rewrite E'. cbn [bind lift2 ibin]. rewrite real_sub_number by (specialize (R1' (a - 1) ltac:(lra)); lra). reflexivity.
  - split; [|split; [|split]].
    + split; [|split].
      * intros x Hx. specialize (R1' (x - 1) ltac:(lra)). cbn in R1'. nra.
      * exists (xl' + 1). split; [lra|]. nra.
      * exists (xu' + 1). split; [lra|]. nra.
    + intros x y Hx Hy. specialize (R1 x Hx). cbn in R1. lra.
    + exists xl, b. split; [lra|]. split; lra.
    + exists xu, a. split; [lra|]. split; lra.
Qed.
