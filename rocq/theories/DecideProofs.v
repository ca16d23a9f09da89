(** Rounding errors of expressions with conditions (C84). *)
From Coq Require Import Reals ZArith Bool List Lra Psatz.
From Flocq Require Import Core BinarySingleNaN.
From Verif Require Import Outcome SetModel Spec SetProofs SetProofs2 Num NumLaws IntervalModel IvlSpec IvlProofs XReal FloatNum FloatMath FloatProofs FloatMathProofs ConstrainModel CondSpec ConstrainProofs ConstrainProofs5
  ValueTypes RoundSpec RoundProofs MachineSpec TrigMachineProofs PowNearProofs LibMachineProofs RealMath LangModel LangSpec LangProofs LangProofs2 MathModel MathSpec ArithProofs4 AccuSpec AccuProofs AccuProofs2 DecideSpec.
Import ListNotations.
Open Scope R_scope.

Section Decide.
  Context (prec emax : Z) (Hp : Prec_gt_0 prec) (He : Prec_lt_emax prec emax).
  Notation F := (float_num prec emax Hp He).
  Context (L : libm (binary_float prec emax)) (acc : unop -> R) (dbg : bool).
  Notation M := (float_math prec emax Hp He L).
  Implicit Types (V : list (arg F)) (e : expr F).
  Let HN : num_laws F := value_type_laws F (vt_float prec emax Hp He).
  Let HO : ord_laws F := nl_ord F HN.

  Lemma real_dec (k : rel) (r s : R) : exists b : bool, b = true <-> rel_real k r s.
  Proof.
    destruct k; cbn [rel_real].
    - destruct (Req_dec r s); [exists true|exists false]; split; intros; auto; discriminate || contradiction.
    - destruct (Req_dec r s); [exists false|exists true]; split; intros; auto; discriminate || contradiction.
    - destruct (Rlt_dec r s); [exists true|exists false]; split; intros; auto; discriminate || contradiction.
    - destruct (Rle_dec r s); [exists true|exists false]; split; intros; auto; discriminate || contradiction.
    - destruct (Rgt_dec r s); [exists true|exists false]; split; intros; auto; discriminate || contradiction.
    - destruct (Rge_dec r s); [exists true|exists false]; split; intros; auto; discriminate || contradiction.
  Qed.
  Lemma le_iff (p q : F) : is_finite (p : binary_float prec emax) = true -> is_finite (q : binary_float prec emax) = true -> (o_le p q = true <-> B2R (p : binary_float prec emax) <= B2R (q : binary_float prec emax)).
  Proof. intros A B. destruct (le_real prec emax Hp He p q A B) as [[-> K]|[-> K]]; [tauto|]. split; [discriminate|intros; lra]. Qed.
  Lemma finite_ok (p : F) : is_finite (p : binary_float prec emax) = true -> ok p.
  Proof. intros A. apply (le_iff p p A A). apply Rle_refl. Qed.
  Lemma lt_iff (p q : F) : is_finite (p : binary_float prec emax) = true -> is_finite (q : binary_float prec emax) = true -> (o_lt p q = true <-> B2R (p : binary_float prec emax) < B2R (q : binary_float prec emax)).
  Proof.
    intros A B. pose proof (finite_ok p A) as Kp. pose proof (finite_ok q B) as Kq. pose proof (le_iff q p B A) as H. split; intros K.
    - apply Rnot_le_lt. intros C. apply H in C. clear - HO K C. ord HO.
    - destruct (o_lt p q) eqn:E; [reflexivity|]. exfalso. assert (C : o_le q p = true) by (clear - HO E Kp Kq; ord HO). apply H in C. lra.
  Qed.
  Lemma eq_iff (p q : F) : is_finite (p : binary_float prec emax) = true -> is_finite (q : binary_float prec emax) = true -> (o_eq p q = true <-> B2R (p : binary_float prec emax) = B2R (q : binary_float prec emax)).
  Proof.
    intros A B. pose proof (finite_ok p A) as Kp. pose proof (finite_ok q B) as Kq. pose proof (le_iff q p B A) as H. pose proof (le_iff p q A B) as H'. split; intros K.
    - assert (C : o_le q p = true /\ o_le p q = true) by (split; clear - HO K; ord HO). destruct C as [C D]. apply H in C. apply H' in D. lra.
    - assert (C : o_le q p = true /\ o_le p q = true) by (rewrite H, H'; split; lra). destruct C as [C D]. clear - HO C D. ord HO.
  Qed.
  Lemma finite_proper (a : arg F) : finite_arg a -> aproper a.
  Proof.
    intros (A & B & C). destruct a as [v|X]; cbn in *; [exact (finite_ok v A)|]. now apply (le_iff (lo X) (hi X) A B).
  Qed.

  Lemma ends (x : arg F) : finite_arg x -> ael x (alower x) /\ ael x (aupper x).
  Proof.
    intros (A & B & C). pose proof (finite_ok _ A) as K1. pose proof (finite_ok _ B) as K2. assert (Le : o_le (alower x) (aupper x) = true) by now apply le_iff. repeat split; assumption.
  Qed.
  (** A truth value that occurs for the real numbers occurs for two elements of the operands. *)
  Lemma rel_occurs (k : rel) (x y : arg F) dx dy r s (b : bool) : finite_arg x -> finite_arg y -> 0 <= dx -> 0 <= dy -> near dx x r -> near dy y s -> rel_clear k dx dy x y -> (b = true <-> rel_real k r s) ->
    exists v w : F, ael x v /\ ael y w /\ rel_holds k v w = b.
  Proof.
    intros Fx Fy Px Py Nx Ny C Hb. unfold near in Nx, Ny. pose proof (ends x Fx) as [Ex1 Ex2]. pose proof (ends y Fy) as [Ey1 Ey2]. destruct Fx as (X1 & X2 & X3), Fy as (Y1 & Y2 & Y3).
    pose proof (lt_iff (alower x) (aupper y) X1 Y2) as Q1. pose proof (le_iff (alower x) (aupper y) X1 Y2) as Q2. pose proof (lt_iff (alower y) (aupper x) Y1 X2) as Q3. pose proof (le_iff (alower y) (aupper x) Y1 X2) as Q4.
    pose proof (lt_iff (aupper x) (alower y) X2 Y1) as Q5. pose proof (le_iff (aupper x) (alower y) X2 Y1) as Q6. pose proof (lt_iff (aupper y) (alower x) Y2 X1) as Q7. pose proof (le_iff (aupper y) (alower x) Y2 X1) as Q8.
    pose proof (eq_iff (alower x) (aupper y) X1 Y2) as Q9. pose proof (eq_iff (aupper x) (alower y) X2 Y1) as Q10.
    assert (ND : forall (o : bool) P, (o = true <-> P) -> ~ P -> o = false) by (intros [] P [H _] N; [exfalso; auto|reflexivity]).
    assert (EQ : B2R (alower x) - dx <= B2R (aupper y) + dy -> B2R (alower y) - dy <= B2R (aupper x) + dx -> le_clear dx dy x y -> le_clear dy dx y x -> exists v : F, ael x v /\ ael y v).
    { intros A1 A2 C1 C2. specialize (C1 A1). specialize (C2 A2). destruct (Rle_dec (B2R (alower x)) (B2R (alower y))) as [D|D].
      - exists (alower y). split; [split; [now apply le_iff|now apply Q4]|exact Ey1].
      - exists (alower x). split; [exact Ex1|]. split; [apply le_iff; auto; lra|now apply Q2]. }
    assert (NQ : r <> s -> (one_point x y -> dx = 0 /\ dy = 0) -> exists v w : F, ael x v /\ ael y w /\ o_eq v w = false).
    { intros N C3. destruct (Req_dec (B2R (alower x)) (B2R (aupper y))) as [D1|D1]; [|exists (alower x), (aupper y); split; [exact Ex1|]; split; [exact Ey2|exact (ND _ _ Q9 D1)]].
      destruct (Req_dec (B2R (aupper x)) (B2R (alower y))) as [D2|D2]; [|exists (aupper x), (alower y); split; [exact Ex2|]; split; [exact Ey1|exact (ND _ _ Q10 D2)]].
      exfalso. destruct C3 as [-> ->]; [unfold one_point; lra|]. lra. }
    destruct k; cbn [rel_real rel_holds rel_clear] in *.
    1, 2: destruct C as (C1 & C2 & C3).
    3-6: destruct C as (C1 & C2); unfold lt_clear, le_clear in C1, C2.
    - destruct b.
      + destruct Hb as [Hb _]. specialize (Hb eq_refl). destruct EQ as (v & Vx & Vy); auto; [lra|lra|]. exists v, v. split; [exact Vx|]. split; [exact Vy|]. destruct Vx as [Vx _]. clear - HO Vx. ord HO.
      + apply NQ; [|exact C3]. intros N. apply Hb in N. discriminate.
    - destruct b.
      + destruct NQ as (v & w & Vx & Vy & E); [now apply Hb|exact C3|]. exists v, w. rewrite E. auto.
      + assert (N : r = s) by (destruct (Req_dec r s) as [N|N]; [exact N|apply Hb in N; discriminate]). destruct EQ as (v & Vx & Vy); auto; [lra|lra|]. exists v, v. split; [exact Vx|]. split; [exact Vy|].
        assert (E : o_eq v v = true) by (destruct Vx as [Vx _]; clear - HO Vx; ord HO). now rewrite E.
    - destruct b.
      + destruct Hb as [Hb _]. specialize (Hb eq_refl). exists (alower x), (aupper y). split; [auto|]. split; [auto|]. apply Q1, C1. lra.
      + assert (N : ~ r < s) by (intros N; apply Hb in N; discriminate). exists (aupper x), (alower y). split; [auto|]. split; [auto|]. apply (ND _ _ Q5). intros K. assert (B2R (alower y) <= B2R (aupper x)) by (apply C2; lra). lra.
    - destruct b.
      + destruct Hb as [Hb _]. specialize (Hb eq_refl). exists (alower x), (aupper y). split; [auto|]. split; [auto|]. apply Q2, C1. lra.
      + assert (N : ~ r <= s) by (intros N; apply Hb in N; discriminate). exists (aupper x), (alower y). split; [auto|]. split; [auto|]. apply (ND _ _ Q6). intros K. assert (B2R (alower y) < B2R (aupper x)) by (apply C2; lra). lra.
    - destruct b.
      + destruct Hb as [Hb _]. specialize (Hb eq_refl). exists (aupper x), (alower y). split; [auto|]. split; [auto|]. apply Q3, C2. lra.
      + assert (N : ~ r > s) by (intros N; apply Hb in N; discriminate). exists (alower x), (aupper y). split; [auto|]. split; [auto|]. apply (ND _ _ Q7). intros K. assert (B2R (alower x) <= B2R (aupper y)) by (apply C1; lra). lra.
    - destruct b.
      + destruct Hb as [Hb _]. specialize (Hb eq_refl). exists (aupper x), (alower y). split; [auto|]. split; [auto|]. apply Q4, C2. lra.
      + assert (N : ~ r >= s) by (intros N; apply Hb in N; discriminate). exists (alower x), (aupper y). split; [auto|]. split; [auto|]. apply (ND _ _ Q8). intros K. assert (B2R (alower x) < B2R (aupper y)) by (apply C1; lra). lra.
  Qed.
  Lemma rel_form_possible (k : rel) e f (x y : arg F) (v w : F) : aproper x -> aproper y -> ael x v -> ael y w -> possible (rel_form k (operand_for e x) (operand_for f y)) (rel_holds k v w).
  Proof.
    intros Ax Ay Hx Hy.
    assert (Tx : tel (term_for (operand_for e x)) v) by (destruct e, x; exact Hx). assert (Ty : tel (term_for (operand_for f y)) w) by (destruct f, y; exact Hy).
    assert (G : possible (GRel k (term_for (operand_for e x)) (term_for (operand_for f y))) (rel_holds k v w)) by (apply possible_rel; eauto).
    destruct x as [p|X], y as [q|Y].
    - assert (E1 : operand_for e (Sc p) = OpVal (Sc p)) by (destruct e; reflexivity). assert (E2 : operand_for f (Sc q) = OpVal (Sc q)) by (destruct f; reflexivity). rewrite E1, E2. cbn [rel_form].
      destruct Hx as [X1 X2], Hy as [Y1 Y2]. cbn [alower aupper] in *. replace (rel_holds k v w) with (rel_holds k p q); [constructor|].
      destruct k; cbn [rel_holds]; (apply eq_true_iff_eq; rewrite ?negb_true_iff, <- ?not_true_iff_false; clear - HO X1 X2 Y1 Y2; assert (P1 : o_eq p v = true) by ord HO; assert (P2 : o_eq q w = true) by ord HO; split; intros H; try intros K; try (apply H); ord HO).
    - revert G. unfold rel_form. destruct (operand_for e (Sc p)) as [i Z|[z|Z]] eqn:E1, (operand_for f (Iv Y)) as [j Z'|[z'|Z']] eqn:E2; auto. destruct f; discriminate E2.
    - revert G. unfold rel_form. destruct (operand_for e (Iv X)) as [i Z|[z|Z]] eqn:E1, (operand_for f (Sc q)) as [j Z'|[z'|Z']] eqn:E2; auto. destruct e; discriminate E1.
    - revert G. unfold rel_form. destruct (operand_for e (Iv X)) as [i Z|[z|Z]] eqn:E1, (operand_for f (Iv Y)) as [j Z'|[z'|Z']] eqn:E2; auto. destruct e; discriminate E1.
  Qed.

  Lemma clear_ends V e a : clear_cut L acc dbg V e -> ieval (Some M) dbg V e = Ret a -> finite_ends a.
  Proof. intros H. destruct e; cbn [clear_cut] in H; destruct H as [H _]; exact (H a). Qed.
  Lemma near_wider d d' (a x : arg F) v : finite_ends a -> finite_arg x -> o_le (alower a) (alower x) = true -> o_le (aupper x) (aupper a) = true -> d <= d' -> near d x v -> near d' a v.
  Proof.
    intros [A1 A2] (X1 & X2 & _) Le1 Le2 D N. apply le_iff in Le1, Le2; auto. unfold near in *. lra.
  Qed.
  Lemma if_accuracy (c : cond F) (x y a : arg F) dx dy (b : bool) v : finite_arg x -> finite_arg y -> member (cset c) b -> lift_if c x y = Ret a -> finite_ends a ->
    near (if b then dx else dy) (if b then x else y) v -> finite_arg a /\ near (Rmax dx dy) a v.
  Proof.
    intros Fx Fy Hb E Fa N. pose proof (Rmax_l dx dy) as R1. pose proof (Rmax_r dx dy) as R2.
    assert (Sd : forall d, c = CBool d -> a = if_else_b d x y -> finite_arg a /\ near (Rmax dx dy) a v).
    { intros d -> ->. cbn in Hb. apply bset_of_member in Hb. subst d. destruct b; cbn [if_else_b]; (split; [assumption|]); unfold near in *; lra. }
    assert (G : forall R, iif_else (cset c) (as_ivl x) (as_ivl y) = Ret R -> a = Iv R -> finite_arg a /\ near (Rmax dx dy) a v).
    { intros R ER ->. pose proof (finite_proper x Fx) as Px. pose proof (finite_proper y Fy) as Py.
      destruct (if_else_hull HN (cset c) (as_ivl x) (as_ivl y) (as_ivl_proper x Px) (as_ivl_proper y Py)) as (Z & EZ & K & _). rewrite ER in EZ. injection EZ as <-.
      destruct (K (ex_intro _ b Hb)) as (K0 & _ & _). clear K.
      assert (Bx : lo (as_ivl x) = alower x /\ hi (as_ivl x) = aupper x) by (destruct x; auto). assert (By : lo (as_ivl y) = alower y /\ hi (as_ivl y) = aupper y) by (destruct y; auto).
      pose proof (ends x Fx) as [Ex1 Ex2]. pose proof (ends y Fy) as [Ey1 Ey2].
      assert (I : forall z : F, ael (if b then x else y) z -> el R z).
      { intros z Hz. apply K0. destruct b; [left|right]; (split; [exact Hb|]); destruct Hz as [Z1 Z2]; (split; [rewrite (proj1 Bx) || rewrite (proj1 By)|rewrite (proj2 Bx) || rewrite (proj2 By)]); assumption. }
      assert (J : finite_arg (if b then x else y) /\ ael (if b then x else y) (alower (if b then x else y)) /\ ael (if b then x else y) (aupper (if b then x else y))) by (destruct b; auto).
      destruct J as (J & J1 & J2). destruct (I _ J1) as [I1 I2], (I _ J2) as [I3 I4]. split.
      - destruct Fa as [A1 A2]. split; [exact A1|]. split; [exact A2|]. cbn [alower aupper]. apply (le_iff (lo R) (hi R) A1 A2). clear - HO I1 I2. ord HO.
      - apply (near_wider (if b then dx else dy) _ (Iv R) (if b then x else y)); auto. now destruct b. }
    destruct c, x as [p|X], y as [q|Y]; cbn [lift_if] in E; try (injection E as <-; eapply Sd; reflexivity); apply bind_inv in E as (R & E & K); injection K as <-; exact (G R E eq_refl).
  Qed.

  Theorem branch_accuracy V rs : Forall finite_arg V -> Forall2 within V rs ->
    (forall e, clear_cut L acc dbg V e -> forall a, ieval (Some M) dbg V e = Ret a -> finite_arg a /\ 0 <= branch_bound L acc dbg V e /\ exists v, rvalue rs e v /\ near (branch_bound L acc dbg V e) a v)
    /\ (forall t, tclear_cut L acc dbg V t -> forall c, itest (Some M) dbg V t = Ret c -> legal (form (M := Some M) dbg V t) /\ exists b, rtruth rs t b /\ possible (form (M := Some M) dbg V t) b).
  Proof.
    intros HV HW. apply expr_test_ind.
    - intros i An a E. cbn [ieval] in E. unfold ilookup in E. destruct (nth_error V i) as [x|] eqn:N; [|discriminate]. injection E as <-.
      destruct (within_nth prec emax Hp He V rs i x HW N) as (r & Nr & Wr). split; [exact (proj1 (Forall_forall _ _) HV x (nth_error_In _ _ N))|]. cbn [branch_bound]. split; [lra|].
      exists r. split; [exact Nr|]. unfold near. unfold within in Wr. lra.
    - intros c An a E. pose proof (clear_ends V _ a An E) as Fa. cbn [ieval] in E. injection E as <-. cbn [branch_bound]. split; [exact (conj (proj1 Fa) (conj (proj2 Fa) (Rle_refl _)))|]. split; [lra|]. exists (B2R c). split; [reflexivity|]. unfold near. cbn [alower aupper]. lra.
    - intros u e IH An a E. pose proof (clear_ends V _ a An E) as Fa. pose proof (run_result prec emax Hp He L dbg V _ a E) as Ra. rewrite ieval_un in E. apply bind_inv in E as (x & Ex & E). cbn [clear_cut] in An. destruct An as (_ & A1 & A2).
      destruct (IH A1 x Ex) as (Hx & Pd & r & Hr & Nr). pose proof (un_accuracy prec emax Hp He L acc dbg u x a (branch_bound L acc dbg V e) r Hx Pd (A2 x Ex) E Fa Nr) as (HA & HB & v & Hv & Nv).
      cbn [branch_bound]. rewrite (run_result prec emax Hp He L dbg V e x Ex), Ra. split; [exact HA|]. split; [exact HB|]. exists v. split; [exists r; auto|exact Nv].
    - intros b e IHe f IHf An a E. pose proof (clear_ends V _ a An E) as Fa. pose proof (run_result prec emax Hp He L dbg V _ a E) as Ra. rewrite ieval_bin in E. apply bind_inv in E as (x & Ex & E). apply bind_inv in E as (y & Ey & E). cbn [clear_cut] in An. destruct An as (_ & A1 & A2 & A3).
      destruct (IHe A1 x Ex) as (Hx & Px & r & Hr & Nr). destruct (IHf A2 y Ey) as (Hy & Py & s & Hs & Ns).
      pose proof (bin_accuracy prec emax Hp He dbg b x y a _ _ r s Hx Hy Px Py (A3 y Ey) E Fa Nr Ns) as (HA & HB & v & Hv & Nv).
      cbn [branch_bound]. rewrite (run_result prec emax Hp He L dbg V e x Ex), (run_result prec emax Hp He L dbg V f y Ey), Ra. split; [exact HA|]. split; [exact HB|]. exists v. split; [exists r, s; auto|exact Nv].
    - intros t IHt e IHe f IHf An a E. pose proof (clear_ends V _ a An E) as Fa. rewrite ieval_if in E. apply bind_inv in E as (c & Ec & E). apply bind_inv in E as (x & Ex & E). apply bind_inv in E as (y & Ey & E).
      cbn [clear_cut] in An. destruct An as (_ & A0 & A1 & A2). destruct (IHt A0 c Ec) as (Lg & b & Tb & Pb). destruct (IHe A1 x Ex) as (Hx & Px & r & Hr & Nr). destruct (IHf A2 y Ey) as (Hy & Py & s & Hs & Ns).
      assert (Mb : member (cset c) b). { destruct (build_ok HO dbg _ Lg) as (c' & E' & _ & Mc). rewrite (itest_build dbg V t c Ec) in E'. injection E' as <-. now apply Mc. }
      destruct (if_accuracy c x y a (branch_bound L acc dbg V e) (branch_bound L acc dbg V f) b (if b then r else s) Hx Hy Mb E Fa) as [HA HB]; [destruct b; [exact Nr|exact Ns]|]. cbn [branch_bound].
      split; [exact HA|]. split; [pose proof (Rmax_l (branch_bound L acc dbg V e) (branch_bound L acc dbg V f)); lra|]. exists (if b then r else s). split; [|exact HB]. exists b. split; [exact Tb|]. now destruct b.
    - intros k e IHe f IHf (A1 & A2 & A3) c E. rewrite itest_rel in E. apply bind_inv in E as (x & Ex & E). apply bind_inv in E as (y & Ey & E). cbn [form]. rewrite Ex, Ey.
      destruct (IHe A1 x Ex) as (Hx & Px & r & Hr & Nr). destruct (IHf A2 y Ey) as (Hy & Py & s & Hs & Ns). pose proof (finite_proper x Hx) as Qx. pose proof (finite_proper y Hy) as Qy.
      split; [apply rel_form_legal; assumption|]. destruct (real_dec k r s) as [b Hb]. exists b. split; [exists r, s; auto|].
      destruct (rel_occurs k x y _ _ r s b Hx Hy Px Py Nr Ns (A3 x y Ex Ey) Hb) as (v & w & Vx & Wy & <-). now apply rel_form_possible.
    - intros t IH An c E. rewrite itest_not in E. apply bind_inv in E as (d & Ed & E). destruct (IH An d Ed) as (Lg & b & Tb & Pb). cbn [form]. split; [exact Lg|]. exists (negb b). split; [exists b; auto|]. apply possible_not. now rewrite negb_involutive.
    - intros t IHt u IHu [A1 A2] c E. rewrite itest_and in E. apply bind_inv in E as (d & Ed & E). apply bind_inv in E as (d' & Ed' & E). destruct (IHt A1 d Ed) as (L1 & b & Tb & Pb), (IHu A2 d' Ed') as (L2 & b' & Tb' & Pb').
      cbn [form]. split; [apply legal_and; auto|]. exists (b && b'). split; [exists b, b'; auto|]. apply possible_and. exists b, b'. auto.
    - intros t IHt u IHu [A1 A2] c E. rewrite itest_or in E. apply bind_inv in E as (d & Ed & E). apply bind_inv in E as (d' & Ed' & E). destruct (IHt A1 d Ed) as (L1 & b & Tb & Pb), (IHu A2 d' Ed') as (L2 & b' & Tb' & Pb').
      cbn [form]. split; [apply legal_or; auto|]. exists (b || b'). split; [exists b, b'; auto|]. apply possible_or. exists b, b'. auto.
  Qed.
  Theorem choice_accuracy V rs e a : Forall finite_arg V -> Forall2 within V rs -> clear_cut L acc dbg V e -> ieval (Some M) dbg V e = Ret a ->
    finite_arg a /\ 0 <= branch_bound L acc dbg V e /\ exists v, rvalue rs e v /\ near (branch_bound L acc dbg V e) a v.
  Proof. intros HV HW C E. exact (proj1 (branch_accuracy V rs HV HW) e C a E). Qed.
  Theorem decision V rs t c : Forall finite_arg V -> Forall2 within V rs -> tclear_cut L acc dbg V t -> itest (Some M) dbg V t = Ret c ->
    exists b : bool, rtruth rs t b /\ member (cset c) b.
  Proof.
    intros HV HW C E. destruct (proj2 (branch_accuracy V rs HV HW) t C c E) as (Lg & b & Tb & Pb). exists b. split; [exact Tb|].
    destruct (build_ok HO dbg _ Lg) as (c' & E' & _ & Mc). rewrite (itest_build dbg V t c E) in E'. injection E' as <-. now apply Mc.
  Qed.
  Lemma real_unique rs : (forall e v w, rvalue rs e v -> rvalue rs e w -> v = w) /\ (forall (t : test F) b c, rtruth rs t b -> rtruth rs t c -> b = c).
  Proof.
    apply expr_test_ind.
    - cbn [rvalue]. intros; congruence.
    - cbn [rvalue]. intros; congruence.
    - intros u e IH v w (r & Hr & H) (r' & Hr' & K). rewrite (IH _ _ Hr' Hr) in K. destruct u; cbn in H, K; intuition congruence.
    - intros b e IHe f IHf v w (r & s & Hr & Hs & H) (r' & s' & Hr' & Hs' & K). rewrite (IHe _ _ Hr' Hr), (IHf _ _ Hs' Hs) in K. destruct b; cbn in H, K; intuition congruence.
    - intros t IHt e IHe f IHf v w (b & Hb & H) (b' & Hb' & K). rewrite (IHt _ _ Hb' Hb) in K. destruct b; [exact (IHe _ _ H K)|exact (IHf _ _ H K)].
    - intros k e IHe f IHf b c (r & s & Hr & Hs & H) (r' & s' & Hr' & Hs' & K). rewrite (IHe _ _ Hr' Hr), (IHf _ _ Hs' Hs) in K. apply eq_true_iff_eq. rewrite H, K. reflexivity.
    - intros t IH b c (d & H & ->) (d' & K & ->). now rewrite (IH _ _ H K).
    - intros t IHt u IHu b c (d & d0 & H & H0 & ->) (d' & d0' & K & K0 & ->). now rewrite (IHt _ _ H K), (IHu _ _ H0 K0).
    - intros t IHt u IHu b c (d & d0 & H & H0 & ->) (d' & d0' & K & K0 & ->). now rewrite (IHt _ _ H K), (IHu _ _ H0 K0).
  Qed.
  Theorem certain V rs t c (b : bool) : Forall finite_arg V -> Forall2 within V rs -> tclear_cut L acc dbg V t -> itest (Some M) dbg V t = Ret c ->
    (forall d, member (cset c) d -> d = b) -> rtruth rs t b /\ ~ rtruth rs t (negb b).
  Proof.
    intros HV HW C E O. destruct (decision V rs t c HV HW C E) as (d & Td & Md). rewrite (O d Md) in Td. split; [exact Td|]. intros N. pose proof (proj2 (real_unique rs) t _ _ Td N) as Q. destruct b; discriminate Q.
  Qed.

  (** ** Numbers *)
  Lemma scalar_same (vs : list F) :
    (forall e w, seval (Some M) dbg vs e = Ret w -> ieval (Some M) dbg (map Sc vs) e = Ret (Sc w)) /\ (forall t b, stest (Some M) dbg vs t = Ret b -> itest (Some M) dbg (map Sc vs) t = Ret (CBool b)).
  Proof.
    apply expr_test_ind.
    - intros i w E. cbn [seval ieval] in *. unfold slookup in E. unfold ilookup. rewrite nth_error_map. destruct (nth_error vs i); [|discriminate]. injection E as <-. reflexivity.
    - intros c w E. cbn [seval ieval] in *. injection E as <-. reflexivity.
    - intros u e IH w E. rewrite seval_un in E. apply bind_inv in E as (v & Ev & E). rewrite ieval_un, (IH v Ev). cbn [bind lift1]. now rewrite E.
    - intros b e IHe f IHf w E. rewrite seval_bin in E. apply bind_inv in E as (v & Ev & E). apply bind_inv in E as (v' & Ev' & E). rewrite ieval_bin, (IHe v Ev), (IHf v' Ev'). cbn [bind lift2]. now rewrite E.
    - intros t IHt e IHe f IHf w E. rewrite seval_if in E. apply bind_inv in E as (b & Eb & E). apply bind_inv in E as (v & Ev & E). apply bind_inv in E as (v' & Ev' & E). rewrite ieval_if, (IHt b Eb), (IHe v Ev), (IHf v' Ev').
      cbn [bind lift_if]. injection E as <-. now destruct b.
    - intros k e IHe f IHf b E. cbn [stest] in E. apply bind_inv in E as (v & Ev & E). apply bind_inv in E as (v' & Ev' & E). rewrite itest_rel, (IHe v Ev), (IHf v' Ev'). cbn [bind]. injection E as <-.
      assert (E1 : operand_for e (Sc v) = OpVal (Sc v)) by (destruct e; reflexivity). assert (E2 : operand_for f (Sc v') = OpVal (Sc v')) by (destruct f; reflexivity). rewrite E1, E2. reflexivity.
    - intros t IH b E. cbn [stest] in E. apply bind_inv in E as (d & Ed & E). injection E as <-. rewrite itest_not, (IH d Ed). reflexivity.
    - intros t IHt u IHu b E. cbn [stest] in E. apply bind_inv in E as (d & Ed & E). apply bind_inv in E as (d' & Ed' & E). injection E as <-. rewrite itest_and, (IHt d Ed), (IHu d' Ed'). reflexivity.
    - intros t IHt u IHu b E. cbn [stest] in E. apply bind_inv in E as (d & Ed & E). apply bind_inv in E as (d' & Ed' & E). injection E as <-. rewrite itest_or, (IHt d Ed), (IHu d' Ed'). reflexivity.
  Qed.
  Theorem scalar_decision (vs : list F) e (w : F) : Forall (fun v => is_finite (v : binary_float prec emax) = true) vs -> clear_cut L acc dbg (map Sc vs) e -> seval (Some M) dbg vs e = Ret w ->
    exists v, rvalue (map (fun v => B2R (v : binary_float prec emax)) vs) e v /\ Rabs (B2R (w : binary_float prec emax) - v) <= branch_bound L acc dbg (map Sc vs) e.
  Proof.
    intros Hv C E. destruct (scalar_args prec emax Hp He vs Hv) as [A1 A2]. destruct (choice_accuracy _ _ e _ A1 A2 C (proj1 (scalar_same vs) e w E)) as (_ & P & v & Rv & N).
    exists v. split; [exact Rv|]. unfold near in N. cbn [alower aupper] in N. apply Rabs_le. lra.
  Qed.
End Decide.
