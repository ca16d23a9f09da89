(** Overloads for plain numbers against the overloads for intervals (C74). *)
From Coq Require Import Bool List.
From Verif Require Import Outcome SetModel Spec SetProofs Num NumLaws IntervalModel IvlSpec IvlProofs ArithProofs ArithProofs2 ArithProofs4 ScalarModel.
Import ListNotations.

Section Proofs.
  Context {N : num} (HN : num_laws N).
  Let HO := nl_ord N HN.
  Implicit Types (X Z : ivl N) (u : N).

  Lemma ssgn_exact dbg u : ok u -> exists t, ssgn dbg u = Ret t /\ has_sign u t.
  Proof.
    intros Hu. pose proof (ok_zero HN) as Oz. unfold ssgn.
    assert (E : o_lt u n_zero || o_eq u n_zero || o_lt n_zero u = true).
    { destruct (o_lt u n_zero) eqn:E1; [reflexivity|]. destruct (o_eq u n_zero) eqn:E2; [reflexivity|]. cbn. ord HO. }
    rewrite E. replace (expects_debug dbg true) with (Ret tt) by now destruct dbg. cbn [bind].
    destruct (o_lt n_zero u) eqn:E1; [exists positive_sign; auto|].
    destruct (o_lt u n_zero) eqn:E2; [exists negative_sign; auto|].
    exists zero_sign. split; [reflexivity|]. cbn in *. rewrite orb_false_r in E. exact E.
  Qed.
  Lemma ssgn_in dbg u X s t : el X u -> ssgn dbg u = Ret t -> isgn dbg X = Ret s -> member s t.
  Proof.
    intros Hu Ht Hs. assert (HX : proper X) by (destruct Hu; unfold proper; ord HO).
    assert (Ou : ok u) by (destruct Hu; ord HO).
    destruct (isgn_exact HN dbg X HX) as (s' & Hs' & _ & Hm). rewrite Hs in Hs'. injection Hs' as <-. apply Hm.
    destruct (ssgn_exact dbg u Ou) as (t' & Ht' & Hsg). rewrite Ht in Ht'. injection Ht' as <-. eauto.
  Qed.
  Lemma ssgn_nan u : nan u -> ssgn true u = FailFast /\ ssgn false u = Ret zero_sign /\ forall dbg, isgn dbg (ivl_of u) = Ret set_empty.
  Proof.
    intros Hu. pose proof (ok_zero HN) as Oz. unfold nan in Hu.
    assert (E1 : o_lt u n_zero = false) by (destruct (o_lt u n_zero) eqn:E; [ord HO|reflexivity]).
    assert (E2 : o_eq u n_zero = false) by (destruct (o_eq u n_zero) eqn:E; [ord HO|reflexivity]).
    assert (E3 : o_lt n_zero u = false) by (destruct (o_lt n_zero u) eqn:E; [ord HO|reflexivity]).
    assert (E4 : o_le u n_zero = false) by (destruct (o_le u n_zero) eqn:E; [ord HO|reflexivity]).
    assert (E5 : o_lt u u = false) by (destruct (o_lt u u) eqn:E; [ord HO|reflexivity]).
    unfold ssgn. rewrite E1, E2, E3. split; [reflexivity|]. split; [reflexivity|]. intros dbg. unfold isgn, ivl_of, assigned. cbn [lo hi].
    rewrite E1, E3, E4, E5. now destruct dbg.
  Qed.

  (** A sign times a value: multiplication by 1, 0, -1 against the value, 0, the negated value. *)
  Lemma sign_value_ok t : ok (sign_value t : N).
  Proof. destruct (nl_one N HN) as (H1 & H2 & _). pose proof (ok_zero HN). destruct t; cbn; auto; ord HO. Qed.
  Lemma sign_product_comm t u : scalar_mul_sign u t = sign_mul_scalar t u.
  Proof. apply (nl_mul_comm N HN). Qed.
  Lemma sign_product_def t u z : sign_times t u = Ret z -> exists p, sign_mul_scalar t u = Ret p.
  Proof.
    unfold sign_mul_scalar. destruct t; cbn; intros H.
    - exact (nl_mul_mone_def N HN _ _ H).
    - exact (nl_mul_zero_def N HN u).
    - destruct (nl_mul_one N HN u) as (p & Hp & _). eauto.
  Qed.
  Lemma sign_product_value t u p : ok u -> sign_mul_scalar t u = Ret p ->
    exists z, sign_times t u = Ret z /\ (o_eq p z = true \/ t = zero_sign /\ infinite u /\ nan p).
  Proof.
    intros Hu. unfold sign_mul_scalar. destruct t; cbn; intros H.
    - destruct (nl_mul_mone N HN _ _ H) as (z & Hz & E). exists z. auto.
    - exists n_zero. split; [reflexivity|]. pose proof (nl_mul_nan N HN _ _ _ (ok_zero HN) Hu H) as Hn.
      rewrite (nl_mul_comm N HN) in H.
      destruct (o_le p p) eqn:Ep; [left; exact (nl_mul_zero N HN _ _ H Ep)|right]. split; [reflexivity|]. split.
      + destruct (n_float N && (o_eq u n_top || o_eq u n_bot)) eqn:Ei.
        * apply andb_true_iff in Ei. rewrite orb_true_iff in Ei. exact Ei.
        * exfalso. assert (O : ok p); [|unfold ok in O; congruence]. apply Hn. intros [[Hi _]|[_ Hi]].
          -- apply (inf_not_zero HN _ Hi). pose proof (ok_zero HN). unfold is_zero. ord HO.
          -- destruct Hi as [Hf Hi]. rewrite Hf in Ei. cbn in Ei. apply orb_false_iff in Ei. destruct Ei, Hi; congruence.
      + unfold nan. rewrite (ol_eq N HO), Ep. reflexivity.
    - destruct (nl_mul_one N HN u) as (q & Hq & E). rewrite H in Hq. injection Hq as <-. exists u. auto.
  Qed.
  Lemma sign_times_ok t u z : ok u -> sign_times t u = Ret z -> ok z.
  Proof.
    destruct t; cbn; intros Hu H; [exact (nl_neg_ok N HN _ _ Hu H)| |]; injection H as <-; [apply (ok_zero HN)|exact Hu].
  Qed.
  Lemma sign_product_exact t u : ok u -> ~ (t = zero_sign /\ infinite u) ->
    scalar_mul_sign u t = sign_mul_scalar t u
    /\ (forall z, sign_times t u = Ret z -> exists p, sign_mul_scalar t u = Ret p /\ o_eq p z = true)
    /\ (forall p, sign_mul_scalar t u = Ret p -> exists z, sign_times t u = Ret z).
  Proof.
    intros Hu Hi. split; [apply sign_product_comm|]. split.
    - intros z Hz. destruct (sign_product_def t u z Hz) as (p & Hp). exists p. split; [exact Hp|].
      destruct (sign_product_value t u p Hu Hp) as (z' & Hz' & [E|(A & B & _)]); [|tauto]. rewrite Hz in Hz'. now injection Hz' as <-.
    - intros p Hp. destruct (sign_product_value t u p Hu Hp) as (z & Hz & _). eauto.
  Qed.
  Lemma sign_product_in dbg (s : sset) X Z t u : el X u -> member s t -> ~ (t = zero_sign /\ infinite u) ->
    signs_mul_ivl dbg s X = Ret Z -> exists p, scalar_mul_sign u t = Ret p /\ el Z p.
  Proof.
    intros Hu Ht Hi HZ. assert (HX : proper X) by (destruct Hu; unfold proper; ord HO).
    assert (Ou : ok u) by (destruct Hu; ord HO).
    destruct (signs_mul_hull HN dbg s X HX) as (_ & G). destruct (G Z HZ) as (Hd & Hh & _).
    destruct (sign_product_exact t u Ou Hi) as (C & D & _).
    assert (E : exists z, sign_times t u = Ret z) by (destruct t; cbn; eauto; exact (Hd Ht u Hu)).
    destruct E as (z & Hz). destruct (D z Hz) as (p & Hp & E). exists p. split; [now rewrite C|].
    destruct (Hh (ex_intro _ t Ht)) as (Hin & _). destruct (Hin z) as [A B]; [exists t, u; auto|]. split; ord HO.
  Qed.

  (** A sign times an interval. *)
  Lemma is_hull_eqv (P Q : N -> Prop) Z : (forall v, P v -> exists w, Q w /\ o_eq v w = true) -> (forall w, Q w -> exists v, P v /\ o_eq v w = true) ->
    is_hull P Z -> is_hull Q Z.
  Proof.
    intros PQ QP (H1 & (a & Ha & Ea) & (b & Hb & Eb)). split; [|split].
    - intros w Hw. destruct (QP w Hw) as (v & Hv & E). destruct (H1 v Hv). split; ord HO.
    - destruct (PQ a Ha) as (w & Hw & E). exists w. split; [exact Hw|ord HO].
    - destruct (PQ b Hb) as (w & Hw & E). exists w. split; [exact Hw|ord HO].
  Qed.
  Lemma mul_eqv (a a' y p : N) : o_eq a a' = true -> ok y -> n_mul a y = Ret p -> exists p', n_mul a' y = Ret p' /\ (ok p -> ok p' -> o_eq p p' = true).
  Proof.
    intros E Hy Hp. assert (A : o_le a a' = true) by ord HO. assert (B : o_le a' a = true) by ord HO.
    destruct (nl_mul_def N HN a a' a y p p A B Hy Hp Hp) as (p' & Hp'). exists p'. split; [exact Hp'|]. intros Op Op'.
    destruct (o_le n_zero y) eqn:Ey.
    - pose proof (nl_mul_mono N HN _ _ _ _ _ A Ey Hp Hp' Op Op'). pose proof (nl_mul_mono N HN _ _ _ _ _ B Ey Hp' Hp Op' Op). ord HO.
    - assert (Ey' : o_le y n_zero = true) by (pose proof (ok_zero HN); ord HO).
      pose proof (nl_mul_anti N HN _ _ _ _ _ A Ey' Hp Hp' Op Op'). pose proof (nl_mul_anti N HN _ _ _ _ _ B Ey' Hp' Hp Op' Op). ord HO.
  Qed.
  Lemma sign_nan_pair t X : proper X -> (nan_pair n_mul (Sc (sign_value t : N)) (Iv X) <-> t = zero_sign /\ exists u, el X u /\ infinite u).
  Proof.
    intros HX. split.
    - intros (a & u & p & Ha & Hu & Hp & Np). change (el X u) in Hu. assert (Ou : ok u) by (destruct Hu; ord HO).
      assert (Ea : o_eq a (sign_value t) = true) by (destruct Ha as [A B]; cbn in A, B; ord HO).
      assert (Oa : ok a) by ord HO. pose proof (nl_mul_nan N HN _ _ _ Oa Ou Hp) as Hn.
      assert (Np' : ~ ok p) by (intros O; unfold nan in Np; ord HO).
      assert (Ia : ~ infinite a).
      { intros Hi. assert (Hi1 : infinite (sign_value t : N)) by (destruct Hi as [Hf [Hi|Hi]]; split; auto; [left|right]; ord HO).
        destruct (nl_mul_one N HN n_zero) as (q & Hq & _). destruct t; cbn in *.
        - assert (Z0 : is_zero (n_zero : N)) by (pose proof (ok_zero HN); unfold is_zero; ord HO).
          destruct (nl_float_total N HN (proj1 Hi1) n_zero n_zero) as ((z & Hz) & _).
          destruct (nl_mul_mone_def N HN _ _ Hz) as (w & Hw). destruct (nl_mul_mone N HN _ _ Hw) as (z' & Hz' & E). rewrite Hz in Hz'. injection Hz' as <-.
          specialize (E (ok_zero HN)). assert (Ow : ok w) by ord HO. assert (Om : ok (n_mone : N)) by exact (sign_value_ok negative_sign).
          apply (nl_mul_nan N HN _ _ _ Om (ok_zero HN) Hw) in Ow. tauto.
        - apply (inf_not_zero HN _ Hi1). pose proof (ok_zero HN). unfold is_zero. ord HO.
        - assert (Z0 : is_zero (n_zero : N)) by (pose proof (ok_zero HN); unfold is_zero; ord HO).
          destruct (nl_mul_one N HN n_zero) as (w & Hw & E). specialize (E (ok_zero HN)). assert (Ow : ok w) by ord HO. assert (Om : ok (n_one : N)) by exact (sign_value_ok positive_sign).
          apply (nl_mul_nan N HN _ _ _ Om (ok_zero HN) Hw) in Ow. tauto. }
      assert (Hz : is_zero a /\ infinite u).
      { destruct (n_float N && (o_eq u n_top || o_eq u n_bot) && o_eq a n_zero) eqn:Ei.
        - rewrite !andb_true_iff, orb_true_iff in Ei. unfold is_zero, infinite. tauto.
        - exfalso. apply Np', Hn. intros [[Hi _]|[Hza [Hf Hi]]]; [tauto|]. unfold is_zero in Hza. rewrite Hf, Hza in Ei. cbn in Ei. rewrite andb_true_r in Ei. apply orb_false_iff in Ei. destruct Ei, Hi; congruence. }
      destruct Hz as [Hz Hi]. split; [|eauto]. destruct (nl_one N HN) as (H1 & H2 & _). unfold is_zero in Hz. destruct t; cbn in Ea; auto; exfalso; ord HO.
    - intros (-> & u & Hu & Hi). destruct (nl_mul_zero_def N HN u) as (p & Hp). assert (Ou : ok u) by (destruct Hu; ord HO).
      exists n_zero, u, p. split; [cbn; pose proof (ok_zero HN); split; ord HO|]. split; [exact Hu|]. split; [exact Hp|].
      pose proof (nl_mul_nan N HN _ _ _ (ok_zero HN) Ou Hp) as Hn. unfold nan. destruct (o_eq p p) eqn:E; [|reflexivity]. exfalso.
      assert (Op : ok p) by ord HO. apply Hn in Op. apply Op. right. split; [|exact Hi]. pose proof (ok_zero HN). unfold is_zero. ord HO.
  Qed.
  Definition one_sign_ok F t X : Prop :=
    ((t = negative_sign -> defined1 n_neg X) <-> exists Z, F = Ret Z)
    /\ forall Z, F = Ret Z ->
       ((t = zero_sign /\ exists u, el X u /\ infinite u) -> nan_ivl Z)
       /\ (~ (t = zero_sign /\ exists u, el X u /\ infinite u) -> is_hull (fun z => exists u, el X u /\ sign_times t u = Ret z) Z).
  Lemma one_sign t X F x y : proper X -> (x, y) = (Sc (sign_value t), Iv X) \/ (x, y) = (Iv X, Sc (sign_value t)) ->
    op_ok n_mul F x y -> one_sign_ok F t X.
  Proof.
    intros HX Hxy (F1 & F2).
    assert (E : forall a u, ael (Sc (sign_value t : N)) a -> o_eq a (sign_value t) = true) by (intros a _ [A B]; cbn in A, B; ord HO).
    assert (D : defined2 n_mul x y <-> (t = negative_sign -> defined1 n_neg X)).
    { assert (D0 : defined2 n_mul x y <-> forall u, el X u -> exists p, sign_mul_scalar t u = Ret p).
      { pose proof (sign_value_ok t) as Ov. split.
        - intros H u Hu. destruct Hxy as [Hxy|Hxy]; injection Hxy as -> ->.
          + apply H; [|exact Hu]. split; exact Ov.
          + unfold sign_mul_scalar. rewrite (nl_mul_comm N HN). apply H; [exact Hu|split; exact Ov].
        - intros H a b Ha Hb. destruct Hxy as [Hxy|Hxy]; injection Hxy as -> ->.
          + destruct (H b Hb) as (p & Hp). assert (Ob : ok b) by (destruct Hb; ord HO). assert (Ea : o_eq (sign_value t) a = true) by (specialize (E a b Ha); ord HO).
            destruct (mul_eqv _ _ _ _ Ea Ob Hp) as (p' & Hp' & _). eauto.
          + destruct (H a Ha) as (p & Hp). assert (Ob : ok a) by (destruct Ha; ord HO). assert (Ea : o_eq (sign_value t) b = true) by (specialize (E b a Hb); ord HO).
            destruct (mul_eqv _ _ _ _ Ea Ob Hp) as (p' & Hp' & _). rewrite (nl_mul_comm N HN). eauto. }
      rewrite D0. split.
      - intros H -> u Hu. destruct (H u Hu) as (p & Hp). assert (Ou : ok u) by (destruct Hu; ord HO).
        destruct (sign_product_value _ _ _ Ou Hp) as (z & Hz & _). cbn in Hz. eauto.
      - intros H u Hu. assert (Z : exists z, sign_times t u = Ret z) by (destruct t; cbn; eauto; exact (H eq_refl u Hu)).
        destruct Z as (z & Hz). exact (sign_product_def _ _ _ Hz). }
    assert (NP : nan_pair n_mul x y <-> t = zero_sign /\ exists u, el X u /\ infinite u).
    { rewrite <- (sign_nan_pair t X HX). destruct Hxy as [Hxy|Hxy]; injection Hxy as -> ->; [reflexivity|].
      split; intros (a & b & p & Ha & Hb & Hp & Np); exists b, a, p; rewrite (nl_mul_comm N HN); auto. }
    split.
    - split; [intros H; apply F1, D, H|]. intros (Z & HZ). apply D, (F2 Z HZ).
    - intros Z HZ. destruct (F2 Z HZ) as (Hd & Hn & Hh). split; [intros H; apply Hn, NP, H|]. intros H.
      assert (H' : ~ nan_pair n_mul x y) by tauto. specialize (Hh H').
      assert (Sp : forall u, el X u -> ~ (t = zero_sign /\ infinite u)) by (intros u Hu [A B]; apply H; eauto).
      assert (K : forall a u p, o_eq a (sign_value t) = true -> el X u -> n_mul a u = Ret p -> ok p -> exists w, (exists u, el X u /\ sign_times t u = Ret w) /\ o_eq p w = true).
      { intros a u p Ea Hu Hp Op. assert (Ou : ok u) by (destruct Hu; ord HO). destruct (mul_eqv _ _ _ _ Ea Ou Hp) as (p' & Hp' & Ep).
        destruct (sign_product_exact t u Ou (Sp u Hu)) as (_ & G1 & G2). destruct (G2 p' Hp') as (z & Hz). destruct (G1 z Hz) as (p'' & Hp'' & Ez).
        unfold sign_mul_scalar in Hp''. rewrite Hp' in Hp''. injection Hp'' as <-. exists z. split; [eauto|]. assert (Op' : ok p') by ord HO. specialize (Ep Op Op'). ord HO. }
      eapply is_hull_eqv; [| |exact Hh].
      + intros p (a & b & Ha & Hb & Hp). assert (Op : ok p) by exact (not_nan_pair HN n_mul x y a b p H' Ha Hb Hp). destruct Hxy as [Hxy|Hxy]; injection Hxy as -> ->.
        * exact (K a b p (E a b Ha) Hb Hp Op).
        * rewrite (nl_mul_comm N HN) in Hp. exact (K b a p (E b a Hb) Ha Hp Op).
      + intros w (u & Hu & Hw). assert (Ou : ok u) by (destruct Hu; ord HO). destruct (sign_product_exact t u Ou (Sp u Hu)) as (_ & G1 & _).
        destruct (G1 w Hw) as (p & Hp & Ep). exists p. split; [|exact Ep]. pose proof (sign_value_ok t) as Ov.
        destruct Hxy as [Hxy|Hxy]; injection Hxy as -> ->.
        * exists (sign_value t), u. split; [split; exact Ov|]. split; [exact Hu|exact Hp].
        * exists u, (sign_value t). split; [exact Hu|]. split; [split; exact Ov|]. now rewrite (nl_mul_comm N HN).
  Qed.
  Lemma sign_mul_ivl_hull dbg t X : proper X -> one_sign_ok (sign_mul_ivl dbg t X) t X /\ one_sign_ok (ivl_mul_sign dbg X t) t X.
  Proof.
    intros HX. pose proof (sign_value_ok t) as Ov. split.
    - eapply one_sign; [exact HX|left; reflexivity|]. apply (mul_op_ok HN); [exact Ov|exact HX].
    - eapply one_sign; [exact HX|right; reflexivity|]. apply (mul_op_ok HN); [exact HX|exact Ov].
  Qed.
End Proofs.

Section Order.
  Context {N : num} (HO : ord_laws N).
  Implicit Types (X Y Z : ivl N).
  Lemma scalar_merge_in X l Z x xs : proper X -> Forall proper l -> el X x -> merge X l = Ret Z -> el Z (scalar_merge x xs).
  Proof.
    intros HX Hl Hx HZ. destruct (merge_hull HO X l HX Hl) as (Z' & HZ' & Hh & _). rewrite HZ in HZ'. injection HZ' as <-. apply Hh. exists X. split; [now left|exact Hx].
  Qed.
  Lemma scalar_intersect_in X l Z x xs : proper X -> Forall proper l -> (exists v, forall Y, In Y (X :: l) -> el Y v) ->
    intersect X l = Ret Z -> (el Z (scalar_intersect x xs) <-> forall Y, In Y (X :: l) -> el Y x).
  Proof.
    intros HX Hl Hc HZ. destruct (intersect_common HO X l HX Hl Hc) as (Z' & HZ' & Hh). rewrite HZ in HZ'. injection HZ' as <-. apply Hh.
  Qed.
  Lemma scalar_assign_in X Y x y : ok (lo X) -> ok (hi X) -> el Y y ->
    (forall Z, free_assign X Y = Ret Z -> el Z (scalar_assign x y))
    /\ (forall Z, free_assign_partial X Y = Ret Z -> el Z (scalar_assign_partial x y))
    /\ el (free_reset X Y) (scalar_reset x y).
  Proof.
    intros Ol Oh [Hl Hh]. split; [|split].
    - unfold free_assign. destruct (assigned X); cbn; [discriminate|]. intros Z H. injection H as <-. split; assumption.
    - unfold free_assign_partial, iassign. destruct (assigned Y); cbn; [|discriminate]. intros Z H. injection H as <-. unfold assign_bounds, scalar_assign_partial, omin, omax.
      split; cbn [lo hi]; [destruct (o_lt (lo Y) (lo X)) eqn:E|destruct (o_lt (hi X) (hi Y)) eqn:E]; ord HO.
    - split; assumption.
  Qed.
End Order.
