(** The example programs compute maxima. *)
From Coq Require Import Bool List Arith ZArith Lia.
From Verif Require Import Outcome SetModel Spec SetProofs Num NumLaws IntervalModel IvlSpec IvlProofs ArithProofs
  ConstrainModel CondSpec ConstrainProofs3 ConstrainProofs5 MathModel LangModel LangSpec ExampleModel IntNum.
Import ListNotations.

Section Max.
  Context {N : num} (HN : num_laws N) (M : option (math N)) (dbg : bool).
  Let HO := nl_ord N HN.
  Implicit Types (A B Z : ivl N) (a b v : N).

  Definition maxima A B v : Prop := exists a b, el A a /\ el B b /\ v = omax a b.
  Lemma bounds_hull A B Z : proper A -> proper B -> o_eq (lo Z) (omax (lo A) (lo B)) = true -> o_eq (hi Z) (omax (hi A) (hi B)) = true -> is_hull (maxima A B) Z.
  Proof.
    unfold proper. intros HA HB El Eh. split; [|split].
    - intros v (a & b & [A1 A2] & [B1 B2] & ->). unfold el, omax in *.
      destruct (o_lt (lo A) (lo B)) eqn:E1, (o_lt (hi A) (hi B)) eqn:E2, (o_lt a b) eqn:E3; split; ord HO.
    - exists (omax (lo A) (lo B)). split; [exists (lo A), (lo B)|clear - HO El; ord HO]. split; [exact (el_lower HO A HA)|]. split; [exact (el_lower HO B HB)|reflexivity].
    - exists (omax (hi A) (hi B)). split; [exists (hi A), (hi B)|clear - HO Eh; ord HO]. split; [exact (el_upper HO A HA)|]. split; [exact (el_upper HO B HB)|reflexivity].
  Qed.

  (** The two constraints of the examples. *)
  Lemma debug_true (b : bool) : b = true -> expects_debug dbg b = Ret tt. Proof. intros ->. now destruct dbg. Qed.
  Lemma constrain_lt_right (v : bset) A B : proper A -> proper B -> bcontains v true = true -> o_lt (lo A) (hi B) = true ->
    exists s, o_succ (lo A) = Ret s /\ o_le (lo A) s = true /\ (forall z, o_lt (lo A) z = true -> o_le s z = true)
      /\ constrain dbg 1 B (CLt v (OpId 0 A) (OpId 1 B)) = Ret (Ivl (omax s (lo B)) (hi B)).
  Proof.
    unfold proper. intros HA HB Hv H. destruct (succ_above HO (hi B) (lo A) H) as (s & Es & S1 & S2 & _). exists s. split; [exact Es|]. split; [exact S1|]. split; [exact S2|].
    unfold constrain. cbn [dconstrain op_is Nat.eqb andb orb negb expects bind op_arg alower aupper]. rewrite Hv, debug_true by exact H. cbn [bind]. rewrite Es. cbn [bind].
    rewrite (mk_proper HO); [reflexivity|]. apply S2 in H. clear - HO H HB S1. unfold omax. destruct (o_lt s (lo B)); ord HO.
  Qed.
  Lemma constrain_le_right (v : bset) A B : proper A -> proper B -> bcontains v true = true -> o_le (lo B) (hi A) = true ->
    constrain dbg 0 A (CLe v (OpId 1 B) (OpId 0 A)) = Ret (Ivl (omax (lo B) (lo A)) (hi A)).
  Proof.
    unfold proper. intros HA HB Hv H.
    unfold constrain. cbn [dconstrain op_is Nat.eqb andb orb negb expects bind op_arg alower aupper]. rewrite Hv, debug_true by exact H. cbn [bind].
    rewrite (mk_proper HO); [reflexivity|]. clear - HO H HA. unfold omax. destruct (o_lt (lo B) (lo A)); ord HO.
  Qed.
  Lemma assign_default l u : o_le l u = true -> exists l' u', @free_assign_partial N ivl_default (Ivl l u) = Ret (Ivl l' u') /\ o_eq l' l = true /\ o_eq u' u = true.
  Proof.
    intros H. unfold free_assign_partial, iassign. rewrite (proper_assigned HO (Ivl l u) H). cbn.
    assert (T : o_le l (@n_top N) = true /\ o_le (@n_bot N) u = true) by (split; [apply (nl_top N HN)|apply (nl_bot N HN)]; clear - HO H; unfold ok; ord HO).
    destruct T as [T1 T2]. eexists _, _. split; [reflexivity|]. clear - HO T1 T2 H. cbn [ivl_default lo hi]. unfold omin, omax.
    destruct (o_lt l (@n_top N)) eqn:E1, (o_lt (@n_bot N) u) eqn:E2; split; ord HO.
  Qed.
  Lemma assign_more l u l' u' : o_le l' u' = true -> @free_assign_partial N (Ivl l u) (Ivl l' u') = Ret (Ivl (omin l l') (omax u u')).
  Proof. intros H. unfold free_assign_partial, iassign. rewrite (proper_assigned HO (Ivl l' u') H). reflexivity. Qed.

  (** Both branches: [b] if possibly [a < b], [a] if possibly not. *)
  Lemma split_max A B (P Q : bool) : proper A -> proper B -> P = o_lt (lo A) (hi B) -> Q = o_le (lo B) (hi A) ->
    forall s, (P = true -> o_le (lo A) s = true /\ forall z, o_lt (lo A) z = true -> o_le s z = true) ->
    exists Z, (r <- (if P then free_assign_partial ivl_default (Ivl (omax s (lo B)) (hi B)) else Ret ivl_default) ;;
               if Q then free_assign_partial r (Ivl (omax (lo B) (lo A)) (hi A)) else Ret r) = Ret Z /\ is_hull (maxima A B) Z.
  Proof.
    intros HA HB -> -> s Hs. unfold proper in HA, HB.
    assert (L1 : o_le (lo B) (hi A) = true -> o_le (omax (lo B) (lo A)) (hi A) = true) by (intros E; clear - HO HA E; unfold omax; destruct (o_lt (lo B) (lo A)); ord HO).
    destruct (o_lt (lo A) (hi B)) eqn:EP.
    - destruct (Hs eq_refl) as [S1 S2]. pose proof (S2 _ EP) as S3.
      assert (L2 : o_le (omax s (lo B)) (hi B) = true) by (clear - HO HB S3 S1; unfold omax; destruct (o_lt s (lo B)); ord HO).
      destruct (assign_default _ _ L2) as (l & u & E & El & Eu). rewrite E. cbn [bind]. destruct (o_le (lo B) (hi A)) eqn:EQ.
      + rewrite (assign_more l u _ _ (L1 eq_refl)). eexists. split; [reflexivity|]. apply bounds_hull; auto; cbn.
        * clear - HO El S1 S2 HA HB EP EQ. pose proof (S2 (lo B)) as S4. clear S2. unfold omin, omax in *. destruct (o_lt (lo A) (lo B)) eqn:K1.
          -- specialize (S4 eq_refl). destruct (o_lt (lo B) (lo A)) eqn:K2; [ord HO|]. destruct (o_lt s (lo B)) eqn:K3; destruct (o_lt (lo B) l) eqn:K4; ord HO.
          -- clear S4. destruct (o_lt (lo B) (lo A)) eqn:K2; destruct (o_lt s (lo B)) eqn:K3; match goal with |- context [if o_lt ?p ?q then _ else _] => destruct (o_lt p q) eqn:K4 end; ord HO.
        * clear - HO Eu HA HB. unfold omax. destruct (o_lt u (hi A)) eqn:K1, (o_lt (hi A) (hi B)) eqn:K2; ord HO.
      + eexists. split; [reflexivity|]. apply bounds_hull; auto; cbn.
        * assert (S5 : o_le s (lo B) = true) by (apply S2; clear - HO HA HB EQ; ord HO). clear - HO El S5 HA HB EQ. unfold omax in *.
          destruct (o_lt s (lo B)) eqn:K1, (o_lt (lo A) (lo B)) eqn:K2; ord HO.
        * clear - HO Eu HA HB EQ. unfold omax. destruct (o_lt (hi A) (hi B)) eqn:K2; ord HO.
    - cbn [bind]. assert (EQ : o_le (lo B) (hi A) = true) by (clear - HO HA HB EP; ord HO). rewrite EQ. destruct (assign_default _ _ (L1 EQ)) as (l & u & E & El & Eu). rewrite E.
      eexists. split; [reflexivity|]. apply bounds_hull; auto; cbn.
      + clear - HO El HA HB EP. unfold omax in *. destruct (o_lt (lo B) (lo A)) eqn:K1, (o_lt (lo A) (lo B)) eqn:K2; ord HO.
      + clear - HO Eu HA HB EP. unfold omax. destruct (o_lt (hi A) (hi B)) eqn:K2; ord HO.
  Qed.

  Lemma two_values (p q : bool) : p || q = true ->
    let v := let result := if p then bassign set_empty true else set_empty in if q then bassign result false else result in
    bcontains v true = p /\ bcontains v false = q /\ exists n, bnot dbg v = Ret n /\ bcontains n true = q /\ bcontains n false = p.
  Proof. destruct p, q, dbg; intros H; try discriminate H; split; try reflexivity; split; try reflexivity; eexists; split; try reflexivity; split; reflexivity. Qed.

  Lemma max3_hull A B : proper A -> proper B -> exists Z, LangModel.irun M dbg [Iv A; Iv B] [] max3 ivl_default = Ret Z /\ is_hull (maxima A B) Z.
  Proof.
    intros HA HB. unfold max3, va, vb. cbn -[bassign bnot c_lt cpossible cpossible_not constrain]. unfold c_lt, rel_lt.
    cbn [op_arg]. rewrite (rel_pre_ok HO dbg (Iv A) (Iv B) HA HB). cbn [bind].
    assert (PQ : o_lt (lo A) (hi B) || o_le (lo B) (hi A) = true).
    { apply orb_true_iff. destruct (o_lt (lo A) (hi B)) eqn:E; [now left|right]. clear - HO HA HB E. unfold proper in *. ord HO. }
    destruct (two_values _ _ PQ) as (V1 & V2 & n & En & V3 & V4). unfold compare_lt. cbn [alower aupper]. set (v := if o_le (lo B) (hi A) then _ else _) in *.
    cbn [cpossible cpossible_not cset]. unfold possibly, possibly_not. cbn [c_not]. rewrite En. cbn [bind].
    destruct (o_lt (lo A) (hi B)) eqn:EP.
    - destruct (constrain_lt_right v A B HA HB V1 EP) as (s & _ & S1 & S2 & Ec). rewrite V1, V2, Ec. cbn [bind].
      destruct (split_max A B true (o_le (lo B) (hi A)) HA HB ltac:(now rewrite EP) eq_refl s ltac:(auto)) as (Z & EZ & HZ). exists Z. split; [|exact HZ]. rewrite <- EZ.
      destruct (free_assign_partial ivl_default _); cbn [bind]; try reflexivity. destruct (o_le (lo B) (hi A)) eqn:EQ; [|reflexivity].
      now rewrite (constrain_le_right n A B HA HB V3 EQ).
    - rewrite V1, V2. cbn [bind].
      destruct (split_max A B false (o_le (lo B) (hi A)) HA HB ltac:(now rewrite EP) eq_refl (lo A) ltac:(discriminate)) as (Z & EZ & HZ). exists Z. split; [|exact HZ]. rewrite <- EZ.
      cbn [bind]. destruct (o_le (lo B) (hi A)) eqn:EQ; [|reflexivity]. now rewrite (constrain_le_right n A B HA HB V3 EQ).
  Qed.
  Lemma split_max_rev A B (P Q : bool) : proper A -> proper B -> P = o_lt (lo A) (hi B) -> Q = o_le (lo B) (hi A) ->
    forall s, (P = true -> o_le (lo A) s = true /\ forall z, o_lt (lo A) z = true -> o_le s z = true) ->
    exists Z, (r <- (if Q then free_assign_partial ivl_default (Ivl (omax (lo B) (lo A)) (hi A)) else Ret ivl_default) ;;
               if P then free_assign_partial r (Ivl (omax s (lo B)) (hi B)) else Ret r) = Ret Z /\ is_hull (maxima A B) Z.
  Proof.
    intros HA HB -> -> s Hs. unfold proper in HA, HB.
    assert (L1 : o_le (lo B) (hi A) = true -> o_le (omax (lo B) (lo A)) (hi A) = true) by (intros E; clear - HO HA E; unfold omax; destruct (o_lt (lo B) (lo A)); ord HO).
    assert (L2 : o_lt (lo A) (hi B) = true -> o_le (omax s (lo B)) (hi B) = true).
    { intros E. destruct (Hs E) as [S1 S2]. pose proof (S2 _ E) as S3. clear - HO HB S3 S1. unfold omax. destruct (o_lt s (lo B)); ord HO. }
    destruct (o_le (lo B) (hi A)) eqn:EQ.
    - destruct (assign_default _ _ (L1 eq_refl)) as (l & u & E & El & Eu). rewrite E. cbn [bind]. destruct (o_lt (lo A) (hi B)) eqn:EP.
      + destruct (Hs eq_refl) as [S1 S2]. rewrite (assign_more l u _ _ (L2 eq_refl)). eexists. split; [reflexivity|]. apply bounds_hull; auto; cbn.
        * clear - HO El S1 S2 HA HB EP EQ. pose proof (S2 (lo B)) as S4. clear S2. unfold omin, omax in *. destruct (o_lt (lo A) (lo B)) eqn:K1.
          -- specialize (S4 eq_refl). destruct (o_lt (lo B) (lo A)) eqn:K2; [ord HO|]. destruct (o_lt s (lo B)) eqn:K3; match goal with |- context [if o_lt ?p ?q then _ else _] => destruct (o_lt p q) eqn:K4 end; ord HO.
          -- clear S4. destruct (o_lt (lo B) (lo A)) eqn:K2; destruct (o_lt s (lo B)) eqn:K3; match goal with |- context [if o_lt ?p ?q then _ else _] => destruct (o_lt p q) eqn:K4 end; ord HO.
        * clear - HO Eu HA HB. unfold omax. destruct (o_lt u (hi B)) eqn:K1, (o_lt (hi A) (hi B)) eqn:K2; ord HO.
      + eexists. split; [reflexivity|]. apply bounds_hull; auto; cbn.
        * clear - HO El HA HB EP. unfold omax in *. destruct (o_lt (lo B) (lo A)) eqn:K1, (o_lt (lo A) (lo B)) eqn:K2; ord HO.
        * clear - HO Eu HA HB EP. unfold omax. destruct (o_lt (hi A) (hi B)) eqn:K2; ord HO.
    - cbn [bind]. assert (EP : o_lt (lo A) (hi B) = true) by (clear - HO HA HB EQ; ord HO). rewrite EP. destruct (Hs EP) as [S1 S2].
      destruct (assign_default _ _ (L2 EP)) as (l & u & E & El & Eu). rewrite E. eexists. split; [reflexivity|]. apply bounds_hull; auto; cbn.
      + assert (S5 : o_le s (lo B) = true) by (apply S2; clear - HO HA HB EQ; ord HO). clear - HO El S5 HA HB EQ. unfold omax in *.
        destruct (o_lt s (lo B)) eqn:K1, (o_lt (lo A) (lo B)) eqn:K2; ord HO.
      + clear - HO Eu HA HB EQ. unfold omax. destruct (o_lt (hi A) (hi B)) eqn:K2; ord HO.
  Qed.
  Lemma imax_hull_run A B : proper A -> proper B -> exists Z, LangModel.irun M dbg [Iv A; Iv B] [] imax_example ivl_default = Ret Z /\ is_hull (maxima A B) Z.
  Proof.
    intros HA HB. unfold imax_example, va, vb. cbn -[bassign bnot c_ge cpossible cpossible_not constrain]. unfold c_ge, rel_geq.
    cbn [op_arg]. rewrite (rel_pre_ok HO dbg (Iv A) (Iv B) HA HB). cbn [bind].
    assert (PQ : o_le (lo B) (hi A) || o_lt (lo A) (hi B) = true).
    { apply orb_true_iff. destruct (o_lt (lo A) (hi B)) eqn:E; [now right|left]. clear - HO HA HB E. unfold proper in *. ord HO. }
    destruct (two_values _ _ PQ) as (V1 & V2 & n & En & V3 & V4). unfold compare_leq. cbn [alower aupper]. set (v := if o_lt (lo A) (hi B) then _ else _) in *.
    cbn [cpossible cpossible_not cset]. unfold possibly, possibly_not. cbn [c_not]. rewrite En. cbn [bind].
    destruct (o_lt (lo A) (hi B)) eqn:EP.
    - destruct (constrain_lt_right n A B HA HB V3 EP) as (s & _ & S1 & S2 & Ec). rewrite V1, V2, Ec. cbn [bind].
      destruct (split_max_rev A B true (o_le (lo B) (hi A)) HA HB ltac:(now rewrite EP) eq_refl s ltac:(auto)) as (Z & EZ & HZ). exists Z. split; [|exact HZ]. rewrite <- EZ.
      destruct (o_le (lo B) (hi A)) eqn:EQ; [|reflexivity]. now rewrite (constrain_le_right v A B HA HB V1 EQ).
    - rewrite V1, V2. cbn [bind].
      destruct (split_max_rev A B false (o_le (lo B) (hi A)) HA HB ltac:(now rewrite EP) eq_refl (lo A) ltac:(discriminate)) as (Z & EZ & HZ). exists Z. split; [|exact HZ]. rewrite <- EZ.
      destruct (o_le (lo B) (hi A)) eqn:EQ; [|reflexivity]. now rewrite (constrain_le_right v A B HA HB V1 EQ).
  Qed.

  (** Without [constrain]: whole arguments are assigned. *)
  Definition either A B v : Prop := (exists a b, el A a /\ el B b /\ o_lt a b = true /\ el B v) \/ (exists a b, el A a /\ el B b /\ o_le b a = true /\ el A v).
  Lemma lt_some A B : proper A -> proper B -> (exists a b, el A a /\ el B b /\ o_lt a b = true) <-> o_lt (lo A) (hi B) = true.
  Proof.
    unfold proper. intros HA HB. split; [intros (a & b & [A1 A2] & [B1 B2] & H); clear - HO A1 B2 H; ord HO|]. intros H. exists (lo A), (hi B).
    split; [exact (el_lower HO A HA)|]. split; [exact (el_upper HO B HB)|exact H].
  Qed.
  Lemma ge_some A B : proper A -> proper B -> (exists a b, el A a /\ el B b /\ o_le b a = true) <-> o_le (lo B) (hi A) = true.
  Proof.
    unfold proper. intros HA HB. split; [intros (a & b & [A1 A2] & [B1 B2] & H); clear - HO A2 B1 H; ord HO|]. intros H. exists (hi A), (lo B).
    split; [exact (el_upper HO A HA)|]. split; [exact (el_lower HO B HB)|exact H].
  Qed.
  Lemma either_iff A B v : proper A -> proper B -> either A B v <-> (o_lt (lo A) (hi B) = true /\ el B v) \/ (o_le (lo B) (hi A) = true /\ el A v).
  Proof.
    intros HA HB. unfold either. rewrite <- (lt_some A B HA HB), <- (ge_some A B HA HB). split.
    - intros [(a & b & H1 & H2 & H3 & H4)|(a & b & H1 & H2 & H3 & H4)]; [left|right]; (split; [exists a, b|]; auto).
    - intros [[(a & b & H1 & H2 & H3) H4]|[(a & b & H1 & H2 & H3) H4]]; [left|right]; exists a, b; auto.
  Qed.
  Lemma assign_default_ivl A : proper A -> exists Z, free_assign_partial ivl_default A = Ret Z /\ is_hull (el A) Z.
  Proof.
    intros HA. destruct A as [l u]. destruct (assign_default l u HA) as (l' & u' & E & El & Eu). eexists. split; [exact E|].
    pose proof (is_hull_self HO (Ivl l u) HA) as (K & (v & Hv & Ev) & (w & Hw & Ew)). unfold proper in HA. cbn in *. split; [|split].
    - intros z [H1 H2]. cbn in *. split; cbn; [clear - HO H1 El|clear - HO H2 Eu]; ord HO.
    - exists v. split; [exact Hv|]. cbn. clear - HO Ev El. ord HO.
    - exists w. split; [exact Hw|]. cbn. clear - HO Ew Eu. ord HO.
  Qed.
  Lemma assign_more_ivl (P : N -> Prop) A R : is_hull P R -> proper A -> exists Z, free_assign_partial R A = Ret Z /\ is_hull (fun v => P v \/ el A v) Z.
  Proof.
    intros HR HA. pose proof (is_hull_proper HO P R HR) as Hp. destruct (iassign_hull HO R A Hp HA) as (Z & E & K). exists Z. split; [exact E|].
    destruct HR as (R1 & (r & Hr & Er) & (r' & Hr' & Er')), K as (K1 & (k & Hk & Ek) & (k' & Hk' & Ek')).
    assert (B : forall v, P v \/ el A v -> el Z v) by (intros v [H|H]; apply K1; [left; apply R1, H|now right]). split; [exact B|]. split.
    - destruct Hk as [[H1 H2]|H]; [|exists k; auto]. exists r. split; [now left|]. destruct (B r (or_introl Hr)) as [H3 _]. clear - HO H1 H3 Er Ek. ord HO.
    - destruct Hk' as [[H1 H2]|H]; [|exists k'; auto]. exists r'. split; [now left|]. destruct (B r' (or_introl Hr')) as [_ H3]. clear - HO H2 H3 Er' Ek'. ord HO.
  Qed.
  Lemma assign_two A B (P Q : bool) : proper A -> proper B -> P || Q = true ->
    exists Z, (r <- (if P then free_assign_partial ivl_default B else Ret ivl_default) ;; if Q then free_assign_partial r A else Ret r) = Ret Z
      /\ is_hull (fun v => (P = true /\ el B v) \/ (Q = true /\ el A v)) Z.
  Proof.
    intros HA HB H. destruct P.
    - destruct (assign_default_ivl B HB) as (R & ER & KR). rewrite ER. cbn [bind]. destruct Q.
      + destruct (assign_more_ivl _ A R KR HA) as (Z & EZ & KZ). exists Z. split; [exact EZ|]. eapply is_hull_ext; [|exact KZ]. cbn. intros v. tauto.
      + exists R. split; [reflexivity|]. eapply is_hull_ext; [|exact KR]. cbn. intros v. split; [auto|]. intros [[_ H']|[H' _]]; [exact H'|discriminate].
    - destruct Q; [|discriminate H]. cbn [bind]. destruct (assign_default_ivl A HA) as (R & ER & KR). exists R. split; [exact ER|]. eapply is_hull_ext; [|exact KR]. cbn. intros v.
      split; [auto|]. intros [[H' _]|[_ H']]; [discriminate|exact H'].
  Qed.
  Lemma max2_hull A B : proper A -> proper B -> exists Z, LangModel.irun M dbg [Iv A; Iv B] [] max2 ivl_default = Ret Z /\ is_hull (either A B) Z.
  Proof.
    intros HA HB. unfold max2, va, vb. cbn -[bassign bnot c_lt cpossible cpossible_not free_assign_partial]. unfold c_lt, rel_lt.
    cbn [op_arg]. rewrite (rel_pre_ok HO dbg (Iv A) (Iv B) HA HB). cbn [bind].
    assert (PQ : o_lt (lo A) (hi B) || o_le (lo B) (hi A) = true).
    { apply orb_true_iff. destruct (o_lt (lo A) (hi B)) eqn:E; [now left|right]. clear - HO HA HB E. unfold proper in *. ord HO. }
    destruct (two_values _ _ PQ) as (V1 & V2 & n & En & V3 & V4). unfold compare_lt. cbn [alower aupper]. set (v := if o_le (lo B) (hi A) then _ else _) in *.
    cbn [cpossible cpossible_not cset]. unfold possibly, possibly_not. cbn [c_not]. rewrite En. cbn [bind]. rewrite V1, V2.
    destruct (assign_two A B _ _ HA HB PQ) as (Z & EZ & KZ). exists Z. split; [exact EZ|]. eapply is_hull_ext; [|exact KZ]. cbn. intros w. symmetry. apply either_iff; auto.
  Qed.
  Lemma imax0_hull A B : proper A -> proper B -> exists Z, LangModel.irun M dbg [Iv A; Iv B] [] imax0 ivl_default = Ret Z /\ is_hull (either A B) Z.
  Proof.
    intros HA HB. unfold imax0, va, vb. cbn -[bassign bnot c_ge cpossible cpossible_not free_assign_partial]. unfold c_ge, rel_geq.
    cbn [op_arg]. rewrite (rel_pre_ok HO dbg (Iv A) (Iv B) HA HB). cbn [bind].
    assert (PQ : o_le (lo B) (hi A) || o_lt (lo A) (hi B) = true).
    { apply orb_true_iff. destruct (o_lt (lo A) (hi B)) eqn:E; [now right|left]. clear - HO HA HB E. unfold proper in *. ord HO. }
    destruct (two_values _ _ PQ) as (V1 & V2 & n & En & V3 & V4). unfold compare_leq. cbn [alower aupper]. set (v := if o_lt (lo A) (hi B) then _ else _) in *.
    cbn [cpossible cpossible_not cset]. unfold possibly, possibly_not. cbn [c_not]. rewrite En. cbn [bind]. rewrite V1, V2.
    destruct (assign_two B A _ _ HB HA PQ) as (Z & EZ & KZ). exists Z. split; [exact EZ|]. eapply is_hull_ext; [|exact KZ]. cbn. intros w. rewrite either_iff by auto. tauto.
  Qed.

  (** ** Runs with numbers *)
  Lemma max3_scalar a b : ok a -> ok b -> srun M dbg [a; b] [] max3 None = Ret (Some (omax a b)).
  Proof. intros Ha Hb. unfold max3, va, vb, omax. cbn. destruct (o_lt a b); reflexivity. Qed.
  Lemma max2_scalar a b : ok a -> ok b -> srun M dbg [a; b] [] max2 None = Ret (Some (omax a b)).
  Proof. intros Ha Hb. unfold max2, va, vb, omax. cbn. destruct (o_lt a b); reflexivity. Qed.
  Lemma ge_not_lt a b : ok a -> ok b -> o_le b a = negb (o_lt a b).
  Proof. intros Ha Hb. unfold ok in *. destruct (o_lt a b) eqn:E; clear - HO Ha Hb E; ord HO. Qed.
  Lemma imax_scalar a b : ok a -> ok b -> srun M dbg [a; b] [] imax_example None = Ret (Some (omax a b)).
  Proof. intros Ha Hb. unfold imax_example, va, vb, omax. cbn. rewrite (ge_not_lt a b Ha Hb). destruct (o_lt a b); reflexivity. Qed.
  Lemma imax0_scalar a b : ok a -> ok b -> srun M dbg [a; b] [] imax0 None = Ret (Some (omax a b)).
  Proof. intros Ha Hb. unfold imax0, va, vb, omax. cbn. rewrite (ge_not_lt a b Ha Hb). destruct (o_lt a b); reflexivity. Qed.
  (** The larger of two numbers. *)
  Definition larger a b v : Prop := (v = a \/ v = b) /\ o_le a v = true /\ o_le b v = true.
  Lemma omax_larger a b : ok a -> ok b -> larger a b (omax a b).
  Proof. unfold ok, larger, omax. intros Ha Hb. destruct (o_lt a b) eqn:E; (split; [auto|split]); clear - HO Ha Hb E; ord HO. Qed.
  Lemma examples_scalar a b (p : prog N) : ~ nan a -> ~ nan b -> In p [max2; max3; imax0; imax_example] -> exists v, srun M dbg [a; b] [] p None = Ret (Some v) /\ larger a b v.
  Proof.
    intros Ha Hb Hp. rewrite (nan_iff HN) in Ha, Hb. assert (Oa : ok a) by (unfold ok in *; destruct (o_le a a); [reflexivity|destruct Ha; discriminate]).
    assert (Ob : ok b) by (unfold ok in *; destruct (o_le b b); [reflexivity|destruct Hb; discriminate]). exists (omax a b). split; [|exact (omax_larger a b Oa Ob)].
    destruct Hp as [<-|[<-|[<-|[<-|[]]]]]; auto using max2_scalar, max3_scalar, imax0_scalar, imax_scalar.
  Qed.
  Definition results (p : prog N) A B v : Prop := exists a b, el A a /\ el B b /\ srun M dbg [a; b] [] p None = Ret (Some v).
  Lemma results_maxima p A B v : (forall a b, ok a -> ok b -> srun M dbg [a; b] [] p None = Ret (Some (omax a b))) -> results p A B v <-> maxima A B v.
  Proof.
    intros H. unfold results, maxima. split; intros (a & b & Ha & Hb & E); exists a, b; (split; [exact Ha|]; split; [exact Hb|]);
      rewrite (H a b (el_ok HO A a Ha) (el_ok HO B b Hb)) in *; [now injection E as <-|now subst v].
  Qed.
  Lemma exact_examples A B (p : prog N) : proper A -> proper B -> In p [max3; imax_example] ->
    exists Z, LangModel.irun M dbg [Iv A; Iv B] [] p ivl_default = Ret Z /\ is_hull (results p A B) Z.
  Proof.
    intros HA HB [<-|[<-|[]]]; [destruct (max3_hull A B HA HB) as (Z & E & K)|destruct (imax_hull_run A B HA HB) as (Z & E & K)]; exists Z; (split; [exact E|]);
      (eapply is_hull_ext; [|exact K]); intros v; symmetry; apply results_maxima; auto using max3_scalar, imax_scalar.
  Qed.
  Lemma wide_examples A B (p : prog N) : proper A -> proper B -> In p [max2; imax0] ->
    exists Z, LangModel.irun M dbg [Iv A; Iv B] [] p ivl_default = Ret Z /\ (forall v, results p A B v -> el Z v)
      /\ is_hull (fun v => (el B v /\ exists a b, el A a /\ el B b /\ o_lt a b = true) \/ (el A v /\ exists a b, el A a /\ el B b /\ o_le b a = true)) Z.
  Proof.
    assert (G : forall Z, is_hull (either A B) Z -> (forall v, maxima A B v -> el Z v)
      /\ is_hull (fun v => (el B v /\ exists a b, el A a /\ el B b /\ o_lt a b = true) \/ (el A v /\ exists a b, el A a /\ el B b /\ o_le b a = true)) Z).
    { intros Z K. split.
      - intros v (a & b & Ha & Hb & ->). apply K. unfold either, omax. destruct (o_lt a b) eqn:E; [left|right]; exists a, b; (split; [exact Ha|]; split; [exact Hb|]); (split; [|assumption]).
        + exact E.
        + rewrite (ge_not_lt a b (el_ok HO A a Ha) (el_ok HO B b Hb)). now rewrite E.
      - eapply is_hull_ext; [|exact K]. intros v. unfold either. split.
        + intros [(a & b & H1 & H2 & H3 & H4)|(a & b & H1 & H2 & H3 & H4)]; [left|right]; (split; [exact H4|]); exists a, b; auto.
        + intros [[H4 (a & b & H1 & H2 & H3)]|[H4 (a & b & H1 & H2 & H3)]]; [left|right]; exists a, b; auto. }
    intros HA HB [<-|[<-|[]]]; [destruct (max2_hull A B HA HB) as (Z & E & K)|destruct (imax0_hull A B HA HB) as (Z & E & K)]; exists Z; (split; [exact E|]);
      destruct (G Z K) as [G1 G2]; (split; [|exact G2]); intros v Hv; apply G1; (apply results_maxima in Hv; [exact Hv|]); auto using max2_scalar, imax0_scalar.
  Qed.

  (** ** Lists *)
  Definition greatest (xs : list N) v : Prop := Forall (fun x => o_le x v = true) xs /\ Exists (fun x => o_le v x = true) xs.
  Definition list_maxima (Xs : list (ivl N)) v : Prop := exists xs, Forall2 el Xs xs /\ greatest xs v.
  Lemma greatest_exists x xs : Forall ok (x :: xs) -> exists v, greatest (x :: xs) v.
  Proof.
    revert x. induction xs as [|y xs IH]; intros x H; apply Forall_cons_iff in H as [Hx H].
    - exists x. split; constructor; auto.
    - destruct (IH y H) as (v & G1 & G2). assert (Ov : ok v). { apply Exists_exists in G2 as (z & _ & Hz). clear - HO Hz. unfold ok. ord HO. }
      destruct (o_le x v) eqn:E.
      + exists v. split; [constructor; auto|now right].
      + exists x. split; [|now left]. constructor; [exact Hx|]. eapply Forall_impl; [|exact G1]. cbn. intros z Hz. unfold ok in *. clear - HO Hz E Ov Hx. ord HO.
  Qed.
  Lemma pair_list Z1 Y A l v : (forall v, maxima A Y v -> el Z1 v) -> forall xs, Forall2 el (A :: Y :: l) xs -> greatest xs v -> exists xs', Forall2 el (Z1 :: l) xs' /\ greatest xs' v.
  Proof.
    intros K xs HF [G1 G2]. inversion HF as [|? a ? xs1 Ha HF1]; subst. inversion HF1 as [|? b ? xs2 Hb HF2]; subst. exists (omax a b :: xs2).
    pose proof (omax_larger a b (el_ok HO A a Ha) (el_ok HO Y b Hb)) as (L & L1 & L2).
    split; [constructor; [apply K; exists a, b; auto|exact HF2]|]. apply Forall_cons_iff in G1 as [G1 G3]. apply Forall_cons_iff in G3 as [G3 G4]. split.
    - constructor; [|exact G4]. destruct L as [->| ->]; assumption.
    - apply Exists_cons in G2 as [G2|G2]; [left; clear - HO G2 L1; ord HO|]. apply Exists_cons in G2 as [G2|G2]; [left; clear - HO G2 L2; ord HO|now right].
  Qed.
  Lemma ends_el (Xs : list (ivl N)) : Forall proper Xs -> Forall2 el Xs (map lo Xs) /\ Forall2 el Xs (map hi Xs).
  Proof. intros H. induction H as [|X Xs HX _ [IH1 IH2]]; cbn; split; constructor; auto; [exact (el_lower HO X HX)|exact (el_upper HO X HX)]. Qed.
  Lemma all_ok (Xs : list (ivl N)) xs : Forall2 el Xs xs -> Forall ok xs.
  Proof. intros H. induction H as [|X x Xs xs Hx _ IH]; constructor; auto. exact (el_ok HO X x Hx). Qed.
  Lemma low_greatest Xs xs v w : Forall2 el Xs xs -> greatest (map lo Xs) v -> greatest xs w -> o_le v w = true.
  Proof.
    intros HF [_ G2] [G3 _]. induction HF as [|X x Xs xs [Hx _] _ IH]; cbn in *; [inversion G2|]. apply Forall_cons_iff in G3 as [G3 G4].
    apply Exists_cons in G2 as [G2|G2]; [clear - HO G2 G3 Hx; ord HO|auto].
  Qed.
  Lemma high_greatest Xs xs v w : Forall2 el Xs xs -> greatest (map hi Xs) v -> greatest xs w -> o_le w v = true.
  Proof.
    intros HF [G1 _] [_ G4]. induction HF as [|X x Xs xs [_ Hx] _ IH]; cbn in *; [inversion G4|]. apply Forall_cons_iff in G1 as [G1 G3].
    apply Exists_cons in G4 as [G4|G4]; [clear - HO G4 G1 Hx; ord HO|auto].
  Qed.
  Lemma list_hull X Xs Z : Forall proper (X :: Xs) ->
    (forall v, list_maxima (X :: Xs) v -> el Z v) -> (forall v, el Z v -> exists p q, list_maxima (X :: Xs) p /\ list_maxima (X :: Xs) q /\ o_le p v = true /\ o_le v q = true) ->
    proper Z -> is_hull (list_maxima (X :: Xs)) Z.
  Proof.
    intros HP H1 H2 HZ. split; [exact H1|]. split.
    - destruct (H2 (lo Z) (el_lower HO Z HZ)) as (p & q & Hp & _ & L & _). exists p. split; [exact Hp|]. destruct (H1 p Hp) as [L1 _]. clear - HO L L1. ord HO.
    - destruct (H2 (hi Z) (el_upper HO Z HZ)) as (p & q & _ & Hq & _ & L). exists q. split; [exact Hq|]. destruct (H1 q Hq) as [_ L1]. clear - HO L L1. ord HO.
  Qed.
  Lemma fold_hull (f : ivl N -> ivl N -> outcome (ivl N)) : (forall A B, proper A -> proper B -> exists Z, f A B = Ret Z /\ is_hull (maxima A B) Z) ->
    forall Xs X, Forall proper (X :: Xs) -> exists Z, fold_max f X Xs = Ret Z /\ is_hull (list_maxima (X :: Xs)) Z.
  Proof.
    intros Hf. induction Xs as [|Y Xs IH]; intros X H.
    - exists X. split; [reflexivity|]. apply Forall_cons_iff in H as [H _]. eapply is_hull_ext; [|exact (is_hull_self HO X H)]. intros v. split.
      + intros Hv. exists [v]. split; [repeat constructor; apply Hv|]. pose proof (el_ok HO X v Hv). split; repeat constructor; auto.
      + intros (xs & HF & G1 & G2). inversion HF as [|? x ? xs' [Hx1 Hx2] HF']; subst. inversion HF'; subst. apply Forall_cons_iff in G1 as [G1 _].
        apply Exists_cons in G2 as [G2|G2]; [|inversion G2]. split; [clear - HO Hx1 G1|clear - HO Hx2 G2]; ord HO.
    - pose proof H as HP. apply Forall_cons_iff in H as [HX H]. apply Forall_cons_iff in H as [HY H]. destruct (Hf X Y HX HY) as (Z1 & E1 & K1).
      pose proof (is_hull_proper HO _ _ K1) as P1. destruct (IH Z1 ltac:(constructor; auto)) as (Z & E & K). exists Z. split; [cbn [fold_max]; now rewrite E1|].
      pose proof (is_hull_proper HO _ _ K) as PZ. apply list_hull; auto.
      + intros v (xs & HF & G). apply K. exact (pair_list Z1 Y X Xs v (proj1 K1) xs HF G).
      + destruct (ends_el (X :: Y :: Xs) HP) as [EL EH].
        destruct (greatest_exists (lo X) (map lo (Y :: Xs))) as [p Hp]; [exact (all_ok _ _ EL)|]. destruct (greatest_exists (hi X) (map hi (Y :: Xs))) as [q Hq]; [exact (all_ok _ _ EH)|].
        (* The end points of Z are maxima of lists starting with an element of Z1. *)
        assert (Q : forall w, list_maxima (Z1 :: Xs) w -> o_le p w = true /\ o_le w q = true).
        { intros w (xs & HF & [G1 G2]). inversion HF as [|? z ? xs' Hz HF']; subst.
          destruct K1 as (_ & (v1 & (a1 & b1 & [A1 A1'] & [B1 B1'] & ->) & Ev1) & (v2 & (a2 & b2 & [A2 A2'] & [B2 B2'] & ->) & Ev2)).
          pose proof (omax_larger a1 b1 ltac:(clear - HO A1; unfold ok; ord HO) ltac:(clear - HO B1; unfold ok; ord HO)) as (_ & L1 & L2).
          pose proof (omax_larger a2 b2 ltac:(clear - HO A2; unfold ok; ord HO) ltac:(clear - HO B2; unfold ok; ord HO)) as (L3 & _ & _).
          destruct Hz as [Z1l Z1h]. destruct Hp as [_ Hp], Hq as [Hq _]. apply Forall_cons_iff in G1 as [G1 G1']. split.
          - apply Exists_cons in Hp as [Hp|Hp]; [clear - HO Hp A1 L1 Ev1 Z1l G1; ord HO|]. apply Exists_cons in Hp as [Hp|Hp]; [clear - HO Hp B1 L2 Ev1 Z1l G1; ord HO|].
            clear - HO Hp G1' HF'. revert Hp G1'. induction HF' as [|W x Ws ws [Hx _] _ IH]; cbn; intros Hp G; [inversion Hp|]. apply Forall_cons_iff in G as [G G'].
            apply Exists_cons in Hp as [Hp|Hp]; [clear - HO Hp G Hx; ord HO|auto].
          - apply Forall_cons_iff in Hq as [Q1 Hq]. apply Forall_cons_iff in Hq as [Q2 Hq].
            apply Exists_cons in G2 as [G2|G2]; [destruct L3 as [L3|L3]; rewrite L3 in Ev2; [clear - HO G2 Z1h Ev2 A2' Q1|clear - HO G2 Z1h Ev2 B2' Q2]; ord HO|].
            clear - HO G2 HF' Hq. revert G2 Hq. induction HF' as [|W x Ws ws [_ Hx] _ IH]; cbn; intros G Hq; [inversion G|]. apply Forall_cons_iff in Hq as [Q Hq].
            apply Exists_cons in G as [G|G]; [clear - HO G Q Hx; ord HO|auto]. }
        intros v [V1 V2]. exists p, q. split; [exists (map lo (X :: Y :: Xs)); auto|]. split; [exists (map hi (X :: Y :: Xs)); auto|].
        destruct K as (_ & (w1 & W1 & E1') & (w2 & W2 & E2')). destruct (Q w1 W1) as [Q1 _], (Q w2 W2) as [_ Q2]. split; [clear - HO V1 Q1 E1'|clear - HO V2 Q2 E2']; ord HO.
  Qed.
  Lemma fold_examples X Xs (p : prog N) : Forall proper (X :: Xs) -> In p [max3; imax_example] ->
    exists Z, fold_max (fun A B => LangModel.irun M dbg [Iv A; Iv B] [] p ivl_default) X Xs = Ret Z
      /\ is_hull (fun v => exists xs, Forall2 el (X :: Xs) xs /\ Forall (fun x => o_le x v = true) xs /\ Exists (fun x => o_le v x = true) xs) Z.
  Proof. intros H [<-|[<-|[]]]; apply (fold_hull _); auto using max3_hull, imax_hull_run. Qed.
End Max.

(** Plain assignment: for [2,4] and [3,6] the result is [2,4], without the maximum 6 of 2 and 6. *)
Lemma readme_max_wrong : exists (A B : ivl int32) Z a b v, proper A /\ proper B /\ readme_max true A B = Ret Z
  /\ el A a /\ el B b /\ srun None true [a; b] [] max2 None = Ret (Some v) /\ ~ el Z v.
Proof.
  exists (Ivl (i32 2%Z) (i32 4%Z)), (Ivl (i32 3%Z) (i32 6%Z)), (Ivl (i32 2%Z) (i32 4%Z)), (i32 2%Z), (i32 6%Z), (i32 6%Z).
  split; [reflexivity|]. split; [reflexivity|]. split; [reflexivity|]. split; [split; reflexivity|]. split; [split; reflexivity|]. split; [reflexivity|].
  intros [_ H]. discriminate H.
Qed.
