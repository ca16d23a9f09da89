(** The laws of NumLaws.v for signed integers. *)
From Coq Require Import ZArith Bool Eqdep_dec Lia Psatz.
From Verif Require Import Outcome Num NumLaws IntNum.
Open Scope Z_scope.

Section Int.
  Variables (w : Z) (Hw : 2 <= w).

  Lemma val_range (a : int w) : int_min w <= val a <= int_max w.
  Proof. destruct a as [z H]. cbn. unfold in_range in H. apply andb_true_iff in H as [H1 H2]. apply Z.leb_le in H1, H2. lia. Qed.
  Lemma val_inj (a b : int w) : val a = val b -> a = b.
  Proof. destruct a as [a Ha], b as [b Hb]. cbn. intros <-. f_equal. apply UIP_dec, bool_dec. Qed.
  Lemma int_of_ret z (a : int w) : int_of w z = Ret a <-> val a = z.
  Proof.
    unfold int_of. destruct (bool_dec (in_range w z) true) as [H|H]; split.
    - intros E. injection E as <-. reflexivity.
    - intros <-. apply (f_equal (@Ret (int w))). apply val_inj. reflexivity.
    - discriminate.
    - intros <-. destruct a as [z Ha]. cbn in H. contradiction.
  Qed.
  Lemma int_of_def z : (exists a, int_of w z = Ret a) <-> int_min w <= z <= int_max w.
  Proof.
    split.
    - intros (a & H). apply int_of_ret in H as <-. apply val_range.
    - intros H. unfold int_of. destruct (bool_dec (in_range w z) true) as [|N]; [eauto|]. exfalso. apply N. unfold in_range.
      apply andb_true_iff. rewrite !Z.leb_le. lia.
  Qed.
  Lemma int_of_cases z : int_of w z = UB \/ exists a, int_of w z = Ret a.
  Proof. unfold int_of. destruct (bool_dec _ _); eauto. Qed.

  Lemma int_ord_laws : ord_laws (int_ordty w).
  Proof.
    constructor; cbn; unfold ok; cbn.
    - intros a b. destruct (Z.eqb_spec (val a) (val b)), (Z.leb_spec (val a) (val b)), (Z.leb_spec (val b) (val a)); cbn; auto; lia.
    - intros a b. destruct (Z.ltb_spec (val a) (val b)), (Z.leb_spec (val a) (val b)), (Z.leb_spec (val b) (val a)); cbn; auto; lia.
    - intros. rewrite !Z.leb_refl. auto.
    - intros a b _ _. rewrite !Z.leb_le. lia.
    - intros a b c. rewrite !Z.leb_le. lia.
    - intros _ a y Hy z. apply int_of_ret in Hy. rewrite Z.ltb_lt, Z.leb_le. lia.
    - intros _ a z H. apply Z.ltb_lt in H. apply int_of_def. pose proof (val_range a). pose proof (val_range z). lia.
    - intros _ a y Hy z. apply int_of_ret in Hy. rewrite Z.ltb_lt, Z.leb_le. lia.
    - intros _ a z H. apply Z.ltb_lt in H. apply int_of_def. pose proof (val_range a). pose proof (val_range z). lia.
    - discriminate.
  Qed.

  Lemma quot_le a b c : 0 < c -> a <= b -> Z.quot a c <= Z.quot b c.
  Proof. intros. now apply Z.quot_le_mono. Qed.
  Lemma quot_ge a b c : c < 0 -> a <= b -> Z.quot b c <= Z.quot a c.
  Proof. intros. pose proof (quot_le a b (- c) ltac:(lia) H0). rewrite !Z.quot_opp_r in H1 by lia. lia. Qed.
  Lemma quot_div_pos a c c' : 0 <= a -> c <= c' -> (0 < c \/ c' < 0) -> Z.quot a c' <= Z.quot a c.
  Proof.
    intros Ha Hc [H|H].
    - apply Z.quot_le_compat_l; lia.
    - assert (G : Z.quot a (- c) <= Z.quot a (- c')) by (apply Z.quot_le_compat_l; lia). rewrite !Z.quot_opp_r in G by lia. lia.
  Qed.
  Lemma quot_div_neg a c c' : a <= 0 -> c <= c' -> (0 < c \/ c' < 0) -> Z.quot a c <= Z.quot a c'.
  Proof.
    intros Ha Hc H. pose proof (quot_div_pos (- a) c c' ltac:(lia) Hc H) as G. rewrite !Z.quot_opp_l in G by lia. lia.
  Qed.
  Lemma quot_between a1 a a2 c : a1 <= a <= a2 -> c <> 0 ->
    Z.min (Z.quot a1 c) (Z.quot a2 c) <= Z.quot a c <= Z.max (Z.quot a1 c) (Z.quot a2 c).
  Proof.
    intros [H1 H2] Hc. destruct (Z.lt_total c 0) as [H|[H|H]]; [|lia|].
    - pose proof (quot_ge a1 a c H H1). pose proof (quot_ge a a2 c H H2). lia.
    - pose proof (quot_le a1 a c H H1). pose proof (quot_le a a2 c H H2). lia.
  Qed.
  Lemma quot_between2 a c1 c c2 : c1 <= c <= c2 -> (0 < c1 \/ c2 < 0) ->
    Z.min (Z.quot a c1) (Z.quot a c2) <= Z.quot a c <= Z.max (Z.quot a c1) (Z.quot a c2).
  Proof.
    intros [H1 H2] Hc. destruct (Z.le_ge_cases 0 a) as [H|H].
    - pose proof (quot_div_pos a c1 c H H1 ltac:(lia)). pose proof (quot_div_pos a c c2 H H2 ltac:(lia)). lia.
    - pose proof (quot_div_neg a c1 c H H1 ltac:(lia)). pose proof (quot_div_neg a c c2 H H2 ltac:(lia)). lia.
  Qed.

  Lemma int_num_laws : num_laws (int_num w Hw).
  Proof.
    pose proof (range_facts w Hw) as (E1 & E2 & P).
    assert (R : forall z, int_min w <= z <= int_max w -> exists a, int_of w z = Ret a) by (intros z H; now apply int_of_def).
    assert (Db : forall (a b q : int w), (if val b =? 0 then UB else int_of w (Z.quot (val a) (val b))) = Ret q -> val b <> 0 /\ val q = Z.quot (val a) (val b)).
    { intros a b q. destruct (Z.eqb_spec (val b) 0); [discriminate|]. intros H. apply int_of_ret in H. auto. }
    constructor; cbn -[int_of]; unfold ok, is_zero, infinite, pos_zero, neg_zero, is_ninf, is_pinf; cbn -[int_of].
    - exact int_ord_laws.
    - intros _ a. apply Z.leb_refl.
    - reflexivity.
    - intros a _. apply Z.leb_le. pose proof (val_range a). lia.
    - intros a _. apply Z.leb_le. pose proof (val_range a). lia.
    - rewrite !Z.ltb_lt. lia.
    - split; [reflexivity|split; [reflexivity|]]. now apply int_of_ret.
    - discriminate.
    - discriminate.
    - intros a b. repeat match goal with |- context [int_of w ?z] => destruct (int_of_cases z) as [->|(? & ->)] end;
        destruct (val b =? 0); repeat split; eauto.
    - intros. apply Z.leb_refl.
    - intros. split; apply Z.leb_refl.
    - intros a z _ _. apply Z.leb_refl.
    - intros a b x y H Hx Hy. apply int_of_ret in Hx, Hy. apply Z.leb_le in H. apply Z.leb_le. lia.
    - intros a b x H Hx. apply int_of_ret in Hx. apply Z.leb_le in H. apply R. pose proof (val_range x). pose proof (val_range b). lia.
    - intros a z H Hz. apply int_of_ret in Hz. apply Z.eqb_eq in H. apply Z.eqb_eq. cbn in *. lia.
    - intros a z _ Hz. apply int_of_ret in Hz. exists a. split; [apply int_of_ret; lia|apply Z.eqb_refl].
    - intros a H. apply Z.leb_le in H. cbn in H. exists a. split; [apply int_of_ret; lia|apply Z.eqb_refl].
    - intros a z H Hz. apply int_of_ret in Hz. apply Z.leb_le in H. cbn in H. exists z. split; [apply int_of_ret; lia|apply Z.eqb_refl].
    - intros a v H Hv. apply int_of_ret in Hv. apply Z.leb_le in H. cbn in H. exists v. apply int_of_ret. lia.
    - intros a a' b b' s s' H1 H2 Hs Hs' _ _. apply int_of_ret in Hs, Hs'. apply Z.leb_le in H1, H2. apply Z.leb_le. lia.
    - intros a1 a a2 b1 b b2 s1 s2 H1 H2 H3 H4 Hs Hs'. apply int_of_ret in Hs, Hs'. apply Z.leb_le in H1, H2, H3, H4. apply R.
      pose proof (val_range s1). pose proof (val_range s2). lia.
    - intros a b s _ _ _. split; [|intros _; apply Z.leb_refl]. intros _ [[H _]|[H _]]; discriminate.
    - intros. now rewrite Z.add_comm.
    - intros a a' b b' s s' H1 H2 Hs Hs' _ _. apply int_of_ret in Hs, Hs'. apply Z.leb_le in H1, H2. apply Z.leb_le. lia.
    - intros a1 a a2 b1 b b2 s1 s2 H1 H2 H3 H4 Hs Hs'. apply int_of_ret in Hs, Hs'. apply Z.leb_le in H1, H2, H3, H4. apply R.
      pose proof (val_range s1). pose proof (val_range s2). lia.
    - intros a b s _ _ _. split; [|intros _; apply Z.leb_refl]. intros _ [[H _]|[H _]]; discriminate.
    - intros a b nb s Hn Hs. apply int_of_ret in Hn, Hs. exists s. split; [apply int_of_ret; lia|]. intros _. apply Z.eqb_refl.
    - intros. now rewrite Z.mul_comm.
    - intros a a' c p p' H1 H2 Hp Hp' _ _. apply int_of_ret in Hp, Hp'. apply Z.leb_le in H1, H2. cbn in H2. apply Z.leb_le. rewrite Hp, Hp'. now apply Z.mul_le_mono_nonneg_r.
    - intros a a' c p p' H1 H2 Hp Hp' _ _. apply int_of_ret in Hp, Hp'. apply Z.leb_le in H1, H2. cbn in H2. apply Z.leb_le. rewrite Hp, Hp'. now apply Z.mul_le_mono_nonpos_r.
    - intros a1 a a2 c p1 p2 H1 H2 _ Hp Hp'. apply int_of_ret in Hp, Hp'. apply Z.leb_le in H1, H2. apply R.
      pose proof (val_range p1). pose proof (val_range p2). destruct (Z.le_ge_cases 0 (val c)) as [C|C].
      + pose proof (Z.mul_le_mono_nonneg_r _ _ _ C H1). pose proof (Z.mul_le_mono_nonneg_r _ _ _ C H2). lia.
      + pose proof (Z.mul_le_mono_nonpos_r _ _ _ C H1). pose proof (Z.mul_le_mono_nonpos_r _ _ _ C H2). lia.
    - intros a b p _ _ _. split; [|intros _; apply Z.leb_refl]. intros _ [[[H _] _]|[_ [H _]]]; discriminate.
    - intros a p Hp _. apply int_of_ret in Hp. apply Z.eqb_eq. cbn in *. lia.
    - intros a. apply R. destruct (val a); cbn; lia.
    - intros a. exists a. split; [apply int_of_ret; destruct (val a); reflexivity|]. intros _. apply Z.eqb_refl.
    - intros a p Hp. apply int_of_ret in Hp. exists p. split; [apply int_of_ret; rewrite Hp; destruct (val a); reflexivity|]. intros _. apply Z.eqb_refl.
    - intros a z Hz. apply int_of_ret in Hz. exists z. apply int_of_ret. rewrite Hz. destruct (val a); reflexivity.
    - intros a a' c q q' H1 H2 Hq Hq' _ _. apply Db in Hq as [_ Hq], Hq' as [_ Hq']. apply Z.leb_le in H1. apply Z.ltb_lt in H2. apply Z.leb_le. rewrite Hq, Hq'. now apply quot_le.
    - intros a a' c q q' H1 H2 Hq Hq' _ _. apply Db in Hq as [_ Hq], Hq' as [_ Hq']. apply Z.leb_le in H1. apply Z.ltb_lt in H2. apply Z.leb_le. rewrite Hq, Hq'. now apply quot_ge.
    - intros a c c' q q' H1 H2 H3 Hq Hq' _ _. apply Db in Hq as [_ Hq], Hq' as [_ Hq']. apply Z.leb_le in H1, H2. rewrite !Z.ltb_lt in H3. apply Z.leb_le. rewrite Hq, Hq'. now apply quot_div_pos.
    - intros a c c' q q' H1 H2 H3 Hq Hq' _ _. apply Db in Hq as [_ Hq], Hq' as [_ Hq']. apply Z.leb_le in H1, H2. rewrite !Z.ltb_lt in H3. apply Z.leb_le. rewrite Hq, Hq'. now apply quot_div_neg.
    - intros a1 a a2 c q1 q2 H1 H2 _ Hq Hq'. apply Db in Hq as [Hc Hq], Hq' as [_ Hq']. apply Z.leb_le in H1, H2. destruct (Z.eqb_spec (val c) 0); [contradiction|].
      apply R. pose proof (val_range q1). pose proof (val_range q2). pose proof (quot_between (val a1) (val a) (val a2) (val c) ltac:(lia) Hc). lia.
    - intros a c1 c c2 q1 q2 _ H1 H2 H3 Hq Hq'. apply Db in Hq as [_ Hq], Hq' as [_ Hq']. apply Z.leb_le in H1, H2. rewrite !Z.ltb_lt in H3. cbn in H3. destruct (Z.eqb_spec (val c) 0); [lia|].
      apply R. pose proof (val_range q1). pose proof (val_range q2). pose proof (quot_between2 (val a) (val c1) (val c) (val c2) ltac:(lia) ltac:(cbn; lia)). lia.
    - intros a b q _ _ Hq. split; [|intros _; apply Z.leb_refl]. apply Db in Hq as [Hb _]. intros _ [[[H _] _]|[_ H]]; [discriminate|]. apply Z.eqb_eq in H. cbn in H. contradiction.
    - intros _ a b H. cbn in H. now rewrite H.
    - discriminate.
    - discriminate.
    - discriminate.
  Qed.
End Int.
