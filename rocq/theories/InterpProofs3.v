(** The steps of linear interpolation over a table. *)
From Coq Require Import Bool List Arith ZArith Lia.
From Verif Require Import Outcome SetModel Spec SetProofs Num NumLaws IntervalModel IvlSpec IvlProofs ArithProofs ArithProofs2 ArithProofs4 IntNum IntProofs IterModel IterProofs
  ValueTypes ConstrainModel CondSpec ConstrainProofs ConstrainProofs3 ConstrainProofs4 AlgoModel AlgoSpec AlgoProofs AlgoProofs2 AlgoProofs3 MathModel MathSpec LangModel ExampleProofs InterpModel InterpSpec InterpProofs SegProofs InterpProofs2.
Import ListNotations.
Open Scope nat_scope.

Section Part.
  Context {N : num} (HN : num_laws N) (dbg : bool).
  Let HO := nl_ord N HN.

  (** The condition [xs[j-1] < x], and the negation of [xs[j] < x]. *)
  Lemma pred_above (X : ivl N) e : proper X -> ok e -> o_lt e (hi X) = true ->
    exists s c, o_succ e = Ret s /\ o_le e s = true /\ (forall z, o_lt e z = true -> o_le s z = true) /\ lower_pred dbg (OpId 0 X) e = Ret c
      /\ constrain dbg 0 X c = Ret (Ivl (omax s (lo X)) (hi X)).
  Proof.
    unfold proper. intros HX He H. destruct (succ_above HO (hi X) e H) as (s & Es & S1 & S2 & _). unfold lower_pred, c_lt, rel_lt. cbn [op_arg].
    rewrite (rel_pre_ok HO dbg (Sc e) (Iv X) He HX). cbn [bind]. eexists s, _. split; [exact Es|]. split; [exact S1|]. split; [exact S2|]. split; [reflexivity|].
    assert (Hv : bcontains (compare_lt (Sc e) (Iv X)) true = true).
    { apply bmem. apply (compare_lt_exact HO (Sc e) (Iv X) He HX). exists e, (hi X). split; [split; exact He|]. split; [exact (ael_upper HO (Iv X) HX)|exact H]. }
    unfold constrain. cbn [dconstrain op_is Nat.eqb andb orb negb expects bind op_arg alower aupper]. rewrite Hv. rewrite debug_true by exact H. cbn [bind]. rewrite Es. cbn [bind].
    rewrite (mk_proper HO); [reflexivity|]. apply S2 in H. clear - HO H HX S1. unfold omax. destruct (o_lt s (lo X)); ord HO.
  Qed.
  Lemma pred_below (X : ivl N) e : proper X -> ok e -> o_le (lo X) e = true ->
    exists c d, lower_pred dbg (OpId 0 X) e = Ret c /\ c_not dbg c = Ret d /\ constrain dbg 0 X d = Ret (Ivl (lo X) (omin (hi X) e)).
  Proof.
    unfold proper. intros HX He H. unfold lower_pred, c_lt, rel_lt. cbn [op_arg].
    rewrite (rel_pre_ok HO dbg (Sc e) (Iv X) He HX). cbn [bind]. destruct (compare_lt_exact HO (Sc e) (Iv X) He HX) as [W M].
    assert (F : member (compare_lt (Sc e) (Iv X)) false).
    { apply M. exists e, (lo X). split; [split; exact He|]. split; [exact (ael_lower HO (Iv X) HX)|]. clear - HO H. ord HO. }
    destruct (bnot_ok dbg (compare_lt (Sc e) (Iv X)) W (ex_intro _ false F)) as (n & En & Wn & _ & Mn).
    eexists _, _. split; [reflexivity|]. cbn [c_not]. rewrite En. cbn [bind]. split; [reflexivity|].
    assert (Hv : bcontains n true = true) by (apply bmem; apply Mn; exact F).
    unfold constrain. cbn [dconstrain op_is Nat.eqb andb orb negb expects bind op_arg alower aupper]. rewrite Hv. cbn [andb]. rewrite debug_true by exact H. cbn [bind].
    rewrite (mk_proper HO); [reflexivity|]. clear - HO H HX. unfold omin. destruct (o_lt e (hi X)); ord HO.
  Qed.

  Lemma part_at (X : ivl N) xs (j : int_ordty 64) e0 e1 : proper X -> elem xs (val j - 1) = Ret e0 -> elem xs (val j) = Ret e1 -> (0 < val j < size xs)%Z ->
    ok e0 -> o_lt e0 (hi X) = true -> o_le (lo X) e1 = true -> (o_lt e0 e1 = true \/ (o_disc N = false /\ o_le e0 e1 = true)) ->
    exists XC, part_constrain dbg 0 X (lower_pred dbg (OpId 0 X)) xs (Sc j) = Ret XC /\ proper XC
      /\ o_le e0 (lo XC) = true /\ o_le (hi XC) e1 = true /\ (forall x, el X x -> o_lt e0 x = true -> o_le x e1 = true -> el XC x) /\ (forall x, el XC x -> el X x).
  Proof.
    intros HX E0 E1 Hj K0 L0 L1 L. destruct (pred_above X e0 HX K0 L0) as (s & c & Es & S1 & S2 & Ec & Ecc).
    assert (K1 : ok e1) by (clear - HO L1; ord HO). assert (Ls : o_le s e1 = true).
    { destruct L as [L|[D L]]; [now apply S2|]. destruct (ol_cont _ HO D e0) as [C _]. rewrite Es in C. injection C as ->. exact L. }
    destruct (pred_below X e1 HX K1 L1) as (c' & d & Ec' & Ed & Edd). apply S2 in L0. unfold proper in HX.
    unfold part_constrain. rewrite part_index_ok by (split; [apply Z.leb_refl|cbn; lia]). cbn [bind alower aupper].
    destruct xs as [|x xs]; [cbn in Hj; lia|]. set (r := x :: xs) in *. rewrite (proj2 (Z.ltb_lt 0 (val j))) by lia. rewrite E0. cbn [bind]. rewrite Ec. cbn [bind]. rewrite Ecc. cbn [bind].
    rewrite (proj2 (Z.ltb_lt (val j) (size r))) by lia. rewrite E1. cbn [bind]. rewrite Ec'. cbn [bind]. rewrite Ed. cbn [bind]. rewrite Edd. cbn [bind lo hi].
    clear - HO HX Ls L0 L1 S1 S2 K0 K1. rewrite debug_true.
    2:{ unfold omin, omax. destruct (o_lt e1 (hi X)) eqn:?, (o_lt s (lo X)) eqn:?; apply andb_true_iff; split; ord HO. }
    cbn [bind]. assert (P : o_le (omax (omax s (lo X)) (lo X)) (omin (hi X) (omin (hi X) e1)) = true).
    { clear S2. unfold omin, omax. destruct (o_lt e1 (hi X)) eqn:?, (o_lt s (lo X)) eqn:?; repeat match goal with |- context [if ?b then _ else _] => destruct b end; ord HO. }
    rewrite (mk_proper HO) by exact P. eexists. split; [reflexivity|]. split; [exact P|]. cbn [lo hi]. clear P. split; [|split; [|split]].
    - clear S2. unfold omax. destruct (o_lt s (lo X)) eqn:?; match goal with |- context [if ?b then _ else _] => destruct b eqn:? end; ord HO.
    - clear S2. unfold omin. destruct (o_lt e1 (hi X)) eqn:?; match goal with |- context [if ?b then _ else _] => destruct b eqn:? end; ord HO.
    - intros v [V1 V2] V3 V4. apply S2 in V3. clear S2. split; cbn [lo hi]; [repeat apply omax_lub|repeat apply omin_glb]; assumption.
    - intros v [V1 V2]. cbn [lo hi] in V1, V2. clear S2. unfold el, omin, omax in *. destruct (o_lt e1 (hi X)) eqn:?, (o_lt s (lo X)) eqn:?;
        repeat match goal with H : context [if ?b then _ else _] |- _ => destruct b eqn:? end; split; ord HO.
  Qed.
End Part.

Section Index.
  Variable dbg : bool.
  Notation index := (int_ordty 64).
  Let HI : ord_laws index := nl_ord int64 (int_num_laws 64 le_2_64).
  Notation iop I := (@OpId index 0 I).
  Notation nop m := (@OpVal index (Sc m)).

  Lemma index_test (I : ivl index) (m : index) : proper I -> exists v n, c_eq dbg (iop I) (nop m) = Ret (CEq v (iop I) (nop m))
    /\ c_not dbg (CEq v (iop I) (nop m)) = Ret (CNe n (iop I) (nop m)) /\ wf_set n
    /\ (possibly v = true <-> (val (lo I) <= val m <= val (hi I))%Z) /\ (bcontains n true = true <-> ~ (val (lo I) = val m /\ val (hi I) = val m)).
  Proof.
    intros HX. assert (Hm : aproper (Sc m)) by apply Z.leb_refl. unfold c_eq, rel_eq. cbn [op_arg]. rewrite (rel_pre_ok HI dbg (Iv I) (Sc m) HX Hm). cbn [bind].
    destruct (compare_eq_exact HI (Iv I) (Sc m) HX Hm) as [W M]. set (v := compare_eq (Iv I) (Sc m)) in *.
    assert (NE : exists b, member v b).
    { exists (o_eq (lo I) m). apply M. exists (lo I), m. split; [exact (ael_lower HI (Iv I) HX)|]. split; [exact (ael_lower HI (Sc m) Hm)|reflexivity]. }
    destruct (bnot_ok dbg v W NE) as (n & En & Wn & _ & Mn). exists v, n. split; [reflexivity|]. cbn [c_not]. rewrite En. split; [reflexivity|]. split; [exact Wn|]. apply Z.leb_le in HX. split.
    - rewrite possibly_iff, M. split.
      + intros (x & y & [X1 X2] & [Y1 Y2] & E). cbn in *. apply Z.leb_le in X1, X2, Y1, Y2. apply Z.eqb_eq in E. lia.
      + intros H. exists m, m. split; [split; cbn; apply Z.leb_le; tauto|]. split; [split; cbn; apply Z.leb_refl|apply Z.eqb_refl].
    - rewrite bmem, Mn, M. split.
      + intros (x & y & [X1 X2] & [Y1 Y2] & E). cbn in *. apply Z.leb_le in X1, X2, Y1, Y2. apply Z.eqb_neq in E. lia.
      + intros H. destruct (Z.eq_dec (val (lo I)) (val m)) as [E|E].
        * exists (hi I), m. split; [apply ael_val; cbn [alower aupper]; lia|]. split; [split; cbn; apply Z.leb_refl|]. apply Z.eqb_neq. lia.
        * exists (lo I), m. split; [apply ael_val; cbn [alower aupper]; lia|]. split; [split; cbn; apply Z.leb_refl|]. apply Z.eqb_neq. lia.
  Qed.
  Lemma mk_index (l u : index) : (val l <= val u)%Z -> mk l u = Ret (Ivl l u).
  Proof. intros H. apply (mk_proper HI). now apply Z.leb_le. Qed.
  Lemma index_ne (I : ivl index) (m : index) n considered : proper I -> bcontains n true = true -> ~ (val (lo I) = val m /\ val (hi I) = val m) ->
    exists J, dconstrain dbg 0 I (CNe n (iop I) (nop m)) considered false = Ret (J, true)
      /\ val (lo J) = (if val (lo I) =? val m then val (lo I) + 1 else val (lo I))%Z
      /\ val (hi J) = (if val (lo I) =? val m then val (hi I) else if val (hi I) =? val m then val (hi I) - 1 else val (hi I))%Z.
  Proof.
    intros HX Hn H. apply Z.leb_le in HX. cbn [dconstrain op_is Nat.eqb orb andb op_arg alower aupper]. rewrite Hn.
    rewrite debug_true by (cbn [o_eq int_ordty]; destruct (Z.eqb_spec (val (lo I)) (val m)), (Z.eqb_spec (val (hi I)) (val m)); try reflexivity; tauto).
    cbn [bind o_disc int_ordty o_eq o_succ o_pred]. rewrite Z.eqb_refl, !andb_true_r. pose proof (val_range 64 (lo I)). pose proof (val_range 64 (hi I)).
    destruct (Z.eqb_spec (val (lo I)) (val m)) as [E|E]; [rewrite andb_true_r|rewrite andb_false_r].
    - destruct (Z.eqb_spec (val (lo I)) (val (hi I))) as [F|F]; [lia|]. cbn [negb].
      destruct (proj2 (int_of_def 64 (val (lo I) + 1))) as (s & Es); [lia|]. rewrite Es. cbn [bind]. apply int_of_ret in Es. rewrite mk_index by lia. eexists. split; [reflexivity|]. cbn [lo hi]. lia.
    - destruct (Z.eqb_spec (val (hi I)) (val m)) as [F|F]; [rewrite andb_true_r|rewrite andb_false_r].
      + destruct (Z.eqb_spec (val (lo I)) (val (hi I))) as [G|G]; [lia|]. cbn [negb].
        destruct (proj2 (int_of_def 64 (val (hi I) - 1))) as (s & Es); [lia|]. rewrite Es. cbn [bind]. apply int_of_ret in Es. rewrite mk_index by lia. eexists. split; [reflexivity|]. cbn [lo hi]. lia.
      + exists I. auto.
  Qed.
  (** The indices strictly between 0 and [n]. *)
  Lemma index_inner (I : ivl index) (zero n : index) : proper I -> val zero = 0%Z -> (2 <= val n)%Z -> (0 <= val (lo I))%Z -> (val (hi I) <= val n)%Z ->
    exists below above nbelow nabove, c_eq dbg (iop I) (nop zero) = Ret below /\ c_eq dbg (iop I) (nop n) = Ret above /\ c_not dbg below = Ret nbelow /\ c_not dbg above = Ret nabove
      /\ cpossible below = (val (lo I) =? 0)%Z /\ cpossible above = (val (hi I) =? val n)%Z
      /\ let c := c_and nbelow nabove in
         cpossible c = (Z.max 1 (val (lo I)) <=? Z.min (val n - 1) (val (hi I)))%Z
         /\ (cpossible c = true -> exists J, constrain dbg 0 I c = Ret J /\ val (lo J) = Z.max 1 (val (lo I)) /\ val (hi J) = Z.min (val n - 1) (val (hi I))).
  Proof.
    intros HX H0 H2 Hl Hh. pose proof (proj1 (Z.leb_le _ _) HX) as HX'. destruct (index_test I zero HX) as (v & w & E1 & E2 & W1 & P1 & Q1), (index_test I n HX) as (v' & w' & E1' & E2' & W1' & P1' & Q1').
    eexists _, _, _, _. split; [exact E1|]. split; [exact E1'|]. split; [exact E2|]. split; [exact E2'|].
    cbn [cpossible cset]. split; [apply eq_iff_eq_true; rewrite P1, Z.eqb_eq; lia|]. split; [apply eq_iff_eq_true; rewrite P1', Z.eqb_eq; lia|].
    cbv zeta. unfold c_and. cbn [is_cond orb and_value cset cpossible].
    assert (C : possibly (band w w') = true <-> (Z.max 1 (val (lo I)) <= Z.min (val n - 1) (val (hi I)))%Z).
    { rewrite possibly_iff, band_exact by assumption. unfold ext2. transitivity (member w true /\ member w' true).
      - split; [intros ([|] & [|] & M1 & M2 & E); try discriminate; tauto|]. intros [M1 M2]. exists true, true. auto.
      - rewrite <- !bmem, Q1, Q1'. lia. }
    split; [apply eq_iff_eq_true; rewrite C, Z.leb_le; reflexivity|]. intros HC.
    pose proof (proj1 C HC) as HL. unfold constrain. cbn [dconstrain].
    destruct (index_ne I zero w false HX) as (J & EJ & J1 & J2); [apply Q1; lia|lia|]. destruct (index_ne I n w' true HX) as (J' & EJ' & J1' & J2'); [apply Q1'; lia|lia|].
    cbn [dconstrain] in EJ, EJ'. rewrite EJ. cbn [bind]. rewrite EJ'. cbn [bind].
    assert (HB : bcontains (band w w') true = true) by (apply bmem, possibly_iff, HC). rewrite HB.
    assert (K : (val (lo J) = Z.max 1 (val (lo I)) /\ val (hi J) = val (hi I) /\ val (lo J') = val (lo I) /\ val (hi J') = Z.min (val n - 1) (val (hi I)))%Z).
    { rewrite J1, J2, J1', J2', H0. destruct (Z.eqb_spec (val (lo I)) 0), (Z.eqb_spec (val (lo I)) (val n)), (Z.eqb_spec (val (hi I)) (val n)), (Z.eqb_spec (val (hi I)) 0); lia. }
    destruct K as (K1 & K2 & K3 & K4). rewrite debug_true by (cbn [o_le int_ordty]; apply andb_true_iff; split; apply Z.leb_le; lia). cbn [bind].
    assert (X1 : val (omax (lo J) (lo J')) = Z.max 1 (val (lo I))) by (unfold omax; cbn [o_lt int_ordty]; destruct (Z.ltb_spec (val (lo J)) (val (lo J'))); lia).
    assert (X2 : val (omin (hi J) (hi J')) = Z.min (val n - 1) (val (hi I))) by (unfold omin; cbn [o_lt int_ordty]; destruct (Z.ltb_spec (val (hi J')) (val (hi J))); lia).
    rewrite mk_index by lia. cbn [bind expects]. eexists. split; [reflexivity|]. cbn [lo hi]. auto.
  Qed.
End Index.
