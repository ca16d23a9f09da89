(** square, cube, abs, sgn. *)
From Coq Require Import Bool List.
From Verif Require Import Outcome SetModel Spec SetProofs SetProofs2 Num NumLaws IntervalModel IvlSpec IvlProofs ArithProofs ArithProofs2.
Import ListNotations.

Section Arith.
  Context {N : num} (HN : num_laws N).
  Let HO := nl_ord N HN.
  Implicit Types (X Y Z : ivl N) (u v w : N) (x y : arg N).

  Lemma ok_one : ok (@n_one N). Proof. destruct (nl_one N HN) as (H & _). ord HO. Qed.
  Lemma one_le_top : o_le (@n_one N) n_top = true. Proof. apply (nl_top N HN), ok_one. Qed.
  Lemma inf_dec u : infinite u \/ ~ infinite u.
  Proof. rewrite <- (infinite_b (N := N)). destruct (is_ninf u || is_pinf u); [left|right]; congruence. Qed.
  Lemma inf_pos u : infinite u -> o_le n_zero u = true -> o_eq u n_top = true.
  Proof. intros [_ [H|H]] H0; [exact H|]. destruct (nl_zero N HN). ord HO. Qed.
  Lemma inf_neg u : infinite u -> o_le u n_zero = true -> o_eq u n_bot = true.
  Proof. intros [_ [H|H]] H0; [|exact H]. destruct (nl_zero N HN). ord HO. Qed.
  Lemma zero_not_inf u : is_zero u -> ~ infinite u.
  Proof. intros H1 H2. exact (inf_not_zero HN u H2 H1). Qed.
  Lemma le_zero_zero : is_zero (@n_zero N).
  Proof. unfold is_zero. pose proof (ok_zero HN). ord HO. Qed.
  Lemma one_not_zero : ~ is_zero (@n_one N).
  Proof. unfold is_zero. intros H. destruct (nl_one N HN) as (H1 & _). ord HO. Qed.

  Lemma mul_ok u v p : ok u -> ok v -> n_mul u v = Ret p -> ~ (infinite u /\ is_zero v) -> ~ (is_zero u /\ infinite v) -> ok p.
  Proof. intros Hu Hv Hp H1 H2. apply (nl_mul_nan N HN u v p Hu Hv Hp). tauto. Qed.
  (** a product with a zero factor *)
  Lemma zero_mul u c : ok u -> ~ infinite u -> is_zero c -> forall p, n_mul c u = Ret p -> is_zero p.
  Proof.
    intros Hu Hi Hc p Hp. destruct (nl_mul_zero_def N HN u) as (r & Hr).
    assert (Hok : ok p) by (apply (mul_ok c u p); auto; [unfold is_zero in Hc; ord HO|intros [H _]; exact (zero_not_inf c Hc H)|tauto]).
    assert (Hokr : ok r) by (apply (mul_ok n_zero u r); auto; [apply (ok_zero HN)|intros [H _]; exact (zero_not_inf _ le_zero_zero H)|tauto]).
    assert (Hz : is_zero r) by (apply (nl_mul_zero N HN u r); [now rewrite (nl_mul_comm N HN)|exact Hokr]).
    unfold is_zero in Hc. assert (C1 : o_le c n_zero = true) by ord HO. assert (C2 : o_le n_zero c = true) by ord HO.
    destruct (sign_cases HN u Hu) as [S|S].
    - pose proof (nl_mul_mono N HN _ _ _ _ _ C1 S Hp Hr Hok Hokr). pose proof (nl_mul_mono N HN _ _ _ _ _ C2 S Hr Hp Hokr Hok).
      unfold is_zero in *. clear - HO H H0 Hz. ord HO.
    - pose proof (nl_mul_anti N HN _ _ _ _ _ C1 S Hp Hr Hok Hokr). pose proof (nl_mul_anti N HN _ _ _ _ _ C2 S Hr Hp Hokr Hok).
      unfold is_zero in *. clear - HO H H0 Hz. ord HO.
  Qed.

  Lemma neg_bot_top : n_float N = true -> forall z, @n_neg N n_bot = Ret z -> o_eq z n_top = true.
  Proof.
    intros Hf z Hz. destruct (nl_float_total N HN Hf n_top n_top) as ((w & Hw) & _).
    pose proof (nl_neg_ok N HN _ _ (ok_top HN) Hw) as Ow. destruct (nl_neg_invol N HN _ _ (ok_top HN) Hw) as (t & Ht & Et).
    pose proof (nl_bot N HN w Ow) as Hb. pose proof (nl_neg_anti N HN _ _ _ _ Hb Hz Ht) as H.
    pose proof (nl_top N HN z (nl_neg_ok N HN _ _ (ok_bot HN) Hz)). clear - HO H H0 Et. ord HO.
  Qed.

  (** squares *)
  Lemma sq_ok u p : ok u -> n_mul u u = Ret p -> ok p.
  Proof.
    intros Hu Hp. apply (mul_ok u u p); auto; intros [H1 H2]; [exact (inf_not_zero HN u H1 H2)|exact (inf_not_zero HN u H2 H1)].
  Qed.
  Lemma sq_inf u p : infinite u -> ok u -> n_mul u u = Ret p -> o_eq p n_top = true.
  Proof.
    intros Hi Hu Hp. assert (Op := sq_ok u p Hu Hp). pose proof (nl_top N HN p Op) as Ht. destruct Hi as [Hf [H|H]].
    - destruct (nl_mul_one N HN u) as (r & Hr & Er). specialize (Er Hu).
      assert (L : o_le n_one u = true) by (pose proof one_le_top; ord HO).
      assert (Hp0 : o_le n_zero u = true) by (destruct (nl_zero N HN); ord HO).
      assert (Or : ok r) by ord HO.
      pose proof (nl_mul_mono N HN _ _ _ _ _ L Hp0 Hr Hp Or Op) as G. clear - HO G Er Ht H. ord HO.
    - destruct (nl_float_total N HN Hf u u) as ((z & Hz) & _). destruct (nl_mul_mone_def N HN u z Hz) as (r & Hr).
      destruct (nl_mul_mone N HN u r Hr) as (z' & Hz' & Er). rewrite Hz in Hz'. injection Hz' as <-. specialize (Er Hu).
      assert (Oz : ok z) by exact (nl_neg_ok N HN _ _ Hu Hz).
      assert (Or : ok r) by (clear - HO Er; ord HO).
      assert (L : o_le u n_mone = true). { destruct (nl_one N HN) as (_ & Hm & _). pose proof (nl_bot N HN n_mone ltac:(clear - HO Hm; ord HO)). clear - HO H H0. ord HO. }
      assert (Hn : o_le u n_zero = true) by (destruct (nl_zero N HN) as [Z1 _]; clear - HO H Z1; ord HO).
      pose proof (nl_mul_anti N HN _ _ _ _ _ L Hn Hp Hr Op Or) as G.
      destruct (nl_float_total N HN Hf n_bot n_bot) as ((zb & Hzb) & _). pose proof (neg_bot_top Hf zb Hzb) as Etb.
      assert (L2 : o_le u n_bot = true) by (clear - HO H; ord HO). pose proof (nl_neg_anti N HN _ _ _ _ L2 Hz Hzb) as G2.
      clear - HO G G2 Er Etb Ht. ord HO.
  Qed.
  Lemma sq_nonneg u p : ok u -> n_mul u u = Ret p -> o_le n_zero p = true.
  Proof.
    intros Hu Hp. assert (Op := sq_ok u p Hu Hp). destruct (inf_dec u) as [Hi|Hi].
    - pose proof (sq_inf u p Hi Hu Hp) as E. destruct (nl_zero N HN) as [_ Hz]. clear - HO E Hz. ord HO.
    - destruct (nl_mul_zero_def N HN u) as (r & Hr). pose proof (zero_mul u n_zero Hu Hi le_zero_zero r Hr) as Er.
      assert (Or : ok r) by (unfold is_zero in Er; clear - HO Er; ord HO). unfold is_zero in Er.
      destruct (sign_cases HN u Hu) as [S|S].
      + pose proof (nl_mul_mono N HN _ _ _ _ _ S S Hr Hp Or Op) as G. clear - HO G Er. ord HO.
      + pose proof (nl_mul_anti N HN _ _ _ _ _ S S Hp Hr Op Or) as G. clear - HO G Er. ord HO.
  Qed.
  Lemma sq_zero u p : is_zero u -> n_mul u u = Ret p -> is_zero p.
  Proof. intros Hz Hp. apply (zero_mul u u); auto; [unfold is_zero in Hz; ord HO|]. intros H. exact (zero_not_inf u Hz H). Qed.
  Lemma zero_dec u : is_zero u \/ ~ is_zero u.
  Proof. unfold is_zero. destruct (o_eq u n_zero); [left|right]; congruence. Qed.

  (** definedness of inner products *)
  Lemma mul_def_pos u v c q : o_le n_zero u = true -> o_le u v = true -> ok c -> n_mul v c = Ret q -> exists r, n_mul u c = Ret r.
  Proof. intros H1 H2 Hc Hq. destruct (nl_mul_zero_def N HN c) as (z & Hz). exact (nl_mul_def N HN _ _ _ _ _ _ H1 H2 Hc Hz Hq). Qed.
  Lemma mul_def_neg u v c q : o_le v u = true -> o_le u n_zero = true -> ok c -> n_mul v c = Ret q -> exists r, n_mul u c = Ret r.
  Proof. intros H1 H2 Hc Hq. destruct (nl_mul_zero_def N HN c) as (z & Hz). exact (nl_mul_def N HN _ _ _ _ _ _ H1 H2 Hc Hq Hz). Qed.

  (** [u] lies between zero and [v] *)
  Definition inner u v : Prop := (o_le n_zero u = true /\ o_le u v = true) \/ (o_le v u = true /\ o_le u n_zero = true).
  Lemma inner_ok u v : inner u v -> ok u /\ ok v.
  Proof. intros [[H1 H2]|[H1 H2]]; split; ord HO. Qed.
  Lemma mul_def_inner u v c q : inner u v -> ok c -> n_mul v c = Ret q -> exists r, n_mul u c = Ret r.
  Proof. intros [[H1 H2]|[H1 H2]]; [exact (mul_def_pos u v c q H1 H2)|exact (mul_def_neg u v c q H1 H2)]. Qed.
  Lemma sq_def u v q : inner u v -> n_mul v v = Ret q -> exists p, n_mul u u = Ret p.
  Proof.
    intros H Hq. destruct (inner_ok u v H) as [Hu Hv]. destruct (mul_def_inner u v v q H Hv Hq) as (r & Hr).
    rewrite (nl_mul_comm N HN) in Hr. exact (mul_def_inner u v u r H Hu Hr).
  Qed.
  Lemma sq_le u v p q : inner u v -> n_mul u u = Ret p -> n_mul v v = Ret q -> o_le p q = true.
  Proof.
    intros H Hp Hq. destruct (inner_ok u v H) as [Hu Hv]. assert (Op := sq_ok u p Hu Hp). assert (Oq := sq_ok v q Hv Hq).
    destruct (zero_dec u) as [Hz|Hz].
    { pose proof (sq_zero u p Hz Hp) as E. pose proof (sq_nonneg v q Hv Hq) as G. unfold is_zero in E. clear - HO E G. ord HO. }
    destruct (mul_def_inner u v v q H Hv Hq) as (r & Hr).
    assert (Hvz : ~ is_zero v). { intros E. apply Hz. unfold is_zero in *. destruct H as [[H1 H2]|[H1 H2]]; clear - HO E H1 H2; ord HO. }
    assert (Or : ok r) by (apply (mul_ok u v r); tauto).
    assert (Hr' : n_mul v u = Ret r) by now rewrite (nl_mul_comm N HN).
    destruct H as [[H1 H2]|[H1 H2]].
    - pose proof (nl_mul_mono N HN _ _ _ _ _ H2 H1 Hp Hr' Op Or) as G1.
      assert (S : o_le n_zero v = true) by (clear - HO H1 H2; ord HO).
      pose proof (nl_mul_mono N HN _ _ _ _ _ H2 S Hr Hq Or Oq) as G2. clear - HO G1 G2. ord HO.
    - pose proof (nl_mul_anti N HN _ _ _ _ _ H1 H2 Hr' Hp Or Op) as G1.
      assert (S : o_le v n_zero = true) by (clear - HO H1 H2; ord HO).
      pose proof (nl_mul_anti N HN _ _ _ _ _ H1 S Hq Hr Oq Or) as G2. clear - HO G1 G2. ord HO.
  Qed.

  Lemma el_inner X u : el X u -> inner u (lo X) \/ inner u (hi X).
  Proof.
    intros [H1 H2]. destruct (sign_cases HN u ltac:(clear - HO H1; ord HO)) as [S|S]; [right; left|left; right]; auto.
  Qed.

  Definition op1_ok (f : N -> outcome N) (F : outcome (ivl N)) X : Prop :=
    (defined1 f X -> exists Z, F = Ret Z) /\ (forall Z, F = Ret Z -> defined1 f X /\ is_hull (img1 f X) Z).

  Lemma square_ok dbg X : proper X -> op1_ok nsquare (isquare dbg X) X.
  Proof.
    intros HX. unfold isquare, op1_ok, nsquare. rewrite (pre1_ok HN dbg X HX). cbn [bind].
    pose proof (el_lower HO X HX) as Lx. pose proof (el_upper HO X HX) as Ux.
    assert (Ol : ok (lo X)) by exact (el_ok HO _ _ Lx). assert (Ou : ok (hi X)) by exact (el_ok HO _ _ Ux).
    assert (Hcore : forall a b, n_mul (lo X) (lo X) = Ret a -> n_mul (hi X) (hi X) = Ret b ->
      let l := if o_le (lo X) n_zero && o_le n_zero (hi X) then n_zero else omin a b in
      mk l (omax a b) = Ret (Ivl l (omax a b)) /\ defined1 (fun u => n_mul u u) X /\ is_hull (img1 (fun u => n_mul u u) X) (Ivl l (omax a b))).
    { intros a b Ha Hb l. assert (Oa := sq_ok _ _ Ol Ha). assert (Ob := sq_ok _ _ Ou Hb).
      pose proof (omax_l HO a b Oa Ob) as M1. pose proof (omax_r HO a b Oa Ob) as M2.
      pose proof (omin_l HO a b Oa Ob) as M3. pose proof (omin_r HO a b Oa Ob) as M4.
      pose proof (sq_nonneg _ _ Ol Ha) as P1.
      assert (Hl : o_le l (omax a b) = true). { subst l. destruct (o_le (lo X) n_zero && o_le n_zero (hi X)); [clear - HO P1 M1|clear - HO M1 M3]; ord HO. }
      assert (Hd : defined1 (fun u => n_mul u u) X).
      { intros u Hu. destruct (el_inner X u Hu) as [Hi|Hi]; [exact (sq_def u _ _ Hi Ha)|exact (sq_def u _ _ Hi Hb)]. }
      split; [apply (mk_proper HO); exact Hl|]. split; [exact Hd|]. split; [|split].
      - intros p (u & Hu & Hp). assert (Ou' := el_ok HO _ _ Hu). split; cbn.
        + subst l. destruct (o_le (lo X) n_zero && o_le n_zero (hi X)) eqn:E; [exact (sq_nonneg u p Ou' Hp)|].
          apply andb_false_iff in E. destruct Hu as [U1 U2].
          assert (G : o_le a p = true \/ o_le b p = true).
          { destruct E as [E|E]; [left|right].
            - apply (sq_le (lo X) u a p); auto. left. pose proof (ok_zero HN). clear - HO U1 E Ol H. split; ord HO.
            - apply (sq_le (hi X) u b p); auto. right. pose proof (ok_zero HN). clear - HO U2 E Ou H. split; ord HO. }
          destruct G as [G|G]; [clear - HO G M3|clear - HO G M4]; ord HO.
        + destruct (el_inner X u Hu) as [Hi|Hi]; [pose proof (sq_le u _ _ _ Hi Hp Ha) as G; clear - HO G M1|pose proof (sq_le u _ _ _ Hi Hp Hb) as G; clear - HO G M2]; ord HO.
      - cbn. subst l. destruct (o_le (lo X) n_zero && o_le n_zero (hi X)) eqn:E.
        + apply andb_true_iff in E as [E1 E2]. destruct (Hd n_zero (conj E1 E2)) as (z & Hz). exists z. split; [exists n_zero; split; [split|]; auto|].
          exact (sq_zero n_zero z le_zero_zero Hz).
        + exists (omin a b). split; [|clear - HO M3; ord HO]. destruct (omin_cases a b) as [ -> | -> ]; [exists (lo X)|exists (hi X)]; auto.
      - cbn. exists (omax a b). split; [|clear - HO M1; ord HO]. destruct (omax_cases a b) as [ -> | -> ]; [exists (lo X)|exists (hi X)]; auto. }
    split.
    - intros Hd. destruct (Hd _ Lx) as (a & Ha), (Hd _ Ux) as (b & Hb). destruct (Hcore a b Ha Hb) as (H & _). cbv zeta in H.
      rewrite Ha, Hb. cbn [bind]. destruct (o_le (lo X) n_zero && o_le n_zero (hi X)); cbn [bind]; rewrite H; eauto.
    - intros Z HZ.
      assert (Hab : exists a b, n_mul (lo X) (lo X) = Ret a /\ n_mul (hi X) (hi X) = Ret b).
      { destruct (o_le (lo X) n_zero && o_le n_zero (hi X)); cbn [bind] in HZ;
          destruct (n_mul (lo X) (lo X)) as [a| | | |]; try discriminate; cbn [bind] in HZ;
          destruct (n_mul (hi X) (hi X)) as [b| | | |]; try discriminate; eauto. }
      destruct Hab as (a & b & Ha & Hb). destruct (Hcore a b Ha Hb) as (H & H1 & H2). cbv zeta in *.
      rewrite Ha, Hb in HZ. cbn [bind] in HZ.
      destruct (o_le (lo X) n_zero && o_le n_zero (hi X)); cbn [bind] in HZ; rewrite H in HZ; injection HZ as <-; auto.
  Qed.

  (** cubes *)
  Lemma cube_split u k : ncube u = Ret k <-> exists p, n_mul u u = Ret p /\ n_mul p u = Ret k.
  Proof.
    unfold ncube. split.
    - destruct (n_mul u u) as [p| | | |]; try discriminate. cbn. eauto.
    - intros (p & -> & H). exact H.
  Qed.
  Lemma cube_ok u p k : ok u -> n_mul u u = Ret p -> n_mul p u = Ret k -> ok k.
  Proof.
    intros Hu Hp Hk. apply (mul_ok p u k); auto; [exact (sq_ok u p Hu Hp)| |].
    - intros [Hi Hz]. exact (zero_not_inf p (sq_zero u p Hz Hp) Hi).
    - intros [Hz Hi]. pose proof (sq_inf u p Hi Hu Hp) as E. unfold is_zero in Hz. destruct (nl_zero N HN) as [_ Z]. clear - HO E Hz Z. ord HO.
  Qed.
  Lemma cube_sign u p k : ok u -> n_mul u u = Ret p -> n_mul p u = Ret k ->
    (o_le n_zero u = true -> o_le n_zero k = true) /\ (o_le u n_zero = true -> o_le k n_zero = true).
  Proof.
    intros Hu Hp Hk. assert (Op := sq_ok u p Hu Hp). assert (Ok := cube_ok u p k Hu Hp Hk). pose proof (sq_nonneg u p Hu Hp) as P.
    destruct (inf_dec u) as [Hi|Hi].
    - pose proof (sq_inf u p Hi Hu Hp) as E. destruct (nl_mul_one N HN u) as (r & Hr & Er). specialize (Er Hu).
      assert (L : o_le n_one p = true) by (pose proof one_le_top as O1; clear - HO O1 E; ord HO).
      assert (Or : ok r) by (clear - HO Er; ord HO). split; intros S.
      + pose proof (nl_mul_mono N HN _ _ _ _ _ L S Hr Hk Or Ok) as G. clear - HO G Er S. ord HO.
      + pose proof (nl_mul_anti N HN _ _ _ _ _ L S Hr Hk Or Ok) as G. clear - HO G Er S. ord HO.
    - destruct (nl_mul_zero_def N HN u) as (r & Hr). pose proof (zero_mul u n_zero Hu Hi le_zero_zero r Hr) as Er. unfold is_zero in Er.
      assert (Or : ok r) by (clear - HO Er; ord HO). split; intros S.
      + pose proof (nl_mul_mono N HN _ _ _ _ _ P S Hr Hk Or Ok) as G. clear - HO G Er. ord HO.
      + pose proof (nl_mul_anti N HN _ _ _ _ _ P S Hr Hk Or Ok) as G. clear - HO G Er. ord HO.
  Qed.
  Lemma cube_def u v k : inner u v -> ncube v = Ret k -> exists j, ncube u = Ret j.
  Proof.
    intros H Hk. apply cube_split in Hk as (q & Hq & Hk). destruct (inner_ok u v H) as [Hu Hv].
    destruct (sq_def u v q H Hq) as (p & Hp). assert (Op := sq_ok u p Hu Hp). assert (Oq := sq_ok v q Hv Hq).
    rewrite (nl_mul_comm N HN) in Hk. destruct (mul_def_inner u v q k H Oq Hk) as (r & Hr).
    rewrite (nl_mul_comm N HN) in Hr.
    destruct (mul_def_pos p q u r (sq_nonneg u p Hu Hp) (sq_le u v p q H Hp Hq) Hu Hr) as (j & Hj).
    exists j. apply cube_split. eauto.
  Qed.
  Lemma cube_inner u v j k : inner u v -> ncube u = Ret j -> ncube v = Ret k -> inner j k.
  Proof.
    intros H Hj Hk. apply cube_split in Hj as (p & Hp & Hj). apply cube_split in Hk as (q & Hq & Hk). destruct (inner_ok u v H) as [Hu Hv].
    assert (Op := sq_ok u p Hu Hp). assert (Oq := sq_ok v q Hv Hq). assert (Oj := cube_ok u p j Hu Hp Hj). assert (Ok := cube_ok v q k Hv Hq Hk).
    destruct (cube_sign u p j Hu Hp Hj) as [J1 J2]. destruct (cube_sign v q k Hv Hq Hk) as [K1 K2].
    pose proof (sq_le u v p q H Hp Hq) as Hpq. pose proof (sq_nonneg v q Hv Hq) as Hq0.
    destruct (zero_dec u) as [Hz|Hz].
    { assert (Ez : is_zero j).
      { unfold is_zero. assert (Z1 : o_le n_zero u = true) by (unfold is_zero in Hz; clear - HO Hz; ord HO). assert (Z2 : o_le u n_zero = true) by (unfold is_zero in Hz; clear - HO Hz; ord HO).
        pose proof (J1 Z1) as G1. pose proof (J2 Z2) as G2. clear - HO G1 G2. ord HO. }
      unfold is_zero in Ez. destruct H as [[H1 H2]|[H1 H2]].
      - left. assert (S : o_le n_zero v = true) by (clear - HO H1 H2; ord HO). pose proof (K1 S) as G. clear - HO G Ez. split; ord HO.
      - right. assert (S : o_le v n_zero = true) by (clear - HO H1 H2; ord HO). pose proof (K2 S) as G. clear - HO G Ez. split; ord HO. }
    assert (Hk' : n_mul v q = Ret k) by now rewrite (nl_mul_comm N HN).
    destruct (mul_def_inner u v q k H Oq Hk') as (r & Hr). assert (Hr' : n_mul q u = Ret r) by now rewrite (nl_mul_comm N HN).
    assert (Or : ok r).
    { apply (mul_ok q u r); auto; [tauto|]. intros [Ez Hi].
      assert (Hiv : infinite v).
      { destruct Hi as [Hf Hi]. split; [exact Hf|]. destruct H as [[H1 H2]|[H1 H2]], Hi as [Hi|Hi].
        - left. pose proof (nl_top N HN v Hv) as T. clear - HO Hi H2 T. ord HO.
        - exfalso. destruct (nl_zero N HN) as [Z _]. clear - HO Hi H1 Z. ord HO.
        - exfalso. destruct (nl_zero N HN) as [_ Z]. clear - HO Hi H2 Z. ord HO.
        - right. pose proof (nl_bot N HN v Hv) as T. clear - HO Hi H1 T. ord HO. }
      pose proof (sq_inf v q Hiv Hv Hq) as E. unfold is_zero in Ez. destruct (nl_zero N HN) as [_ Z]. clear - HO E Ez Z. ord HO. }
    destruct H as [[H1 H2]|[H1 H2]]; [left|right]; split; auto.
    - pose proof (nl_mul_mono N HN _ _ _ _ _ Hpq H1 Hj Hr' Oj Or) as G1.
      pose proof (nl_mul_mono N HN _ _ _ _ _ H2 Hq0 Hr Hk' Or Ok) as G2. clear - HO G1 G2. ord HO.
    - pose proof (nl_mul_anti N HN _ _ _ _ _ Hpq H2 Hj Hr' Oj Or) as G1.
      pose proof (nl_mul_mono N HN _ _ _ _ _ H1 Hq0 Hk' Hr Ok Or) as G2. clear - HO G1 G2. ord HO.
  Qed.
  Lemma cube_mono u v j k : o_le u v = true -> ncube u = Ret j -> ncube v = Ret k -> o_le j k = true.
  Proof.
    intros H Hj Hk. assert (Hu : ok u) by (clear - HO H; ord HO). assert (Hv : ok v) by (clear - HO H; ord HO).
    destruct (sign_cases HN u Hu) as [S|S].
    - destruct (cube_inner u v j k (or_introl (conj S H)) Hj Hk) as [[G1 G2]|[G1 G2]]; [exact G2|].
      apply cube_split in Hj as (p & Hp & Hj). apply cube_split in Hk as (q & Hq & Hk).
      destruct (cube_sign u p j Hu Hp Hj) as [J _]. destruct (cube_sign v q k Hv Hq Hk) as [K _].
      assert (S' : o_le n_zero v = true) by (clear - HO S H; ord HO). specialize (J S). specialize (K S'). clear - HO G2 K. ord HO.
    - destruct (sign_cases HN v Hv) as [S'|S'].
      + apply cube_split in Hj as (p & Hp & Hj). apply cube_split in Hk as (q & Hq & Hk).
        destruct (cube_sign u p j Hu Hp Hj) as [_ J]. destruct (cube_sign v q k Hv Hq Hk) as [K _]. specialize (J S). specialize (K S'). clear - HO J K. ord HO.
      + destruct (cube_inner v u k j (or_intror (conj H S')) Hk Hj) as [[G1 G2]|[G1 G2]]; [|exact G1].
        apply cube_split in Hj as (p & Hp & Hj). destruct (cube_sign u p j Hu Hp Hj) as [_ J]. specialize (J S). clear - HO J G1. ord HO.
  Qed.
  Lemma icube_ok dbg X : proper X -> op1_ok ncube (icube dbg X) X.
  Proof.
    intros HX. unfold icube, op1_ok. rewrite (pre1_ok HN dbg X HX). cbn [bind].
    pose proof (el_lower HO X HX) as Lx. pose proof (el_upper HO X HX) as Ux. split.
    - intros Hd. destruct (Hd _ Lx) as (a & Ha), (Hd _ Ux) as (b & Hb). rewrite Ha, Hb. cbn [bind].
      rewrite (mk_proper HO a b (cube_mono _ _ _ _ HX Ha Hb)). eauto.
    - intros Z HZ. destruct (ncube (lo X)) as [a| | | |] eqn:Ha; try discriminate. cbn [bind] in HZ.
      destruct (ncube (hi X)) as [b| | | |] eqn:Hb; try discriminate. cbn [bind] in HZ.
      rewrite (mk_proper HO a b (cube_mono _ _ _ _ HX Ha Hb)) in HZ. injection HZ as <-. split.
      + intros u Hu. destruct (el_inner X u Hu) as [Hi|Hi]; [exact (cube_def u _ _ Hi Ha)|exact (cube_def u _ _ Hi Hb)].
      + apply (hull_by_ends HN); cbn.
        * intros k (u & [U1 U2] & Hk). split; [exact (cube_mono _ _ _ _ U1 Ha Hk)|exact (cube_mono _ _ _ _ U2 Hk Hb)].
        * exists (lo X). auto.
        * exists (hi X). auto.
  Qed.

  (** absolute value *)
  Lemma abs_eq_pos u z : o_le n_zero u = true -> n_abs u = Ret z -> o_eq z u = true.
  Proof. intros H Hz. destruct (nl_abs_pos N HN u H) as (z' & Hz' & E). rewrite Hz in Hz'. injection Hz' as <-. exact E. Qed.
  Lemma abs_eq_neg u z w : o_le u n_zero = true -> n_neg u = Ret z -> n_abs u = Ret w -> o_eq w z = true.
  Proof. intros H Hz Hw. destruct (nl_abs_neg N HN u z H Hz) as (w' & Hw' & E). rewrite Hw in Hw'. injection Hw' as <-. exact E. Qed.
  Lemma neg_nonneg u z : o_le u n_zero = true -> n_neg u = Ret z -> o_le n_zero z = true.
  Proof.
    intros H Hz. destruct (nl_neg_def N HN _ _ _ H Hz) as (w & Hw). pose proof (nl_neg_anti N HN _ _ _ _ H Hz Hw) as G.
    pose proof (nl_neg_zero N HN n_zero w le_zero_zero Hw) as E. unfold is_zero in E. clear - HO G E. ord HO.
  Qed.
  Lemma iabs_ok dbg X : proper X -> op1_ok nabs (iabs dbg X) X.
  Proof.
    intros HX. unfold iabs, op1_ok, nabs. rewrite (pre1_ok HN dbg X HX). cbn [bind].
    pose proof (el_lower HO X HX) as Lx. pose proof (el_upper HO X HX) as Ux.
    assert (Ol : ok (lo X)) by exact (el_ok HO _ _ Lx). assert (Ou : ok (hi X)) by exact (el_ok HO _ _ Ux). pose proof (ok_zero HN) as Oz.
    destruct (o_le (lo X) n_zero && o_le n_zero (hi X)) eqn:E.
    - apply andb_true_iff in E as [E1 E2].
      assert (Hcore : forall nl, n_neg (lo X) = Ret nl -> mk n_zero (omax nl (hi X)) = Ret (Ivl n_zero (omax nl (hi X))) /\
        defined1 n_abs X /\ is_hull (img1 n_abs X) (Ivl n_zero (omax nl (hi X)))).
      { intros nl Hnl. assert (On := nl_neg_ok N HN _ _ Ol Hnl). pose proof (omax_l HO nl (hi X) On Ou) as M1. pose proof (omax_r HO nl (hi X) On Ou) as M2.
        assert (Hd : defined1 n_abs X).
        { intros u [U1 U2]. destruct (sign_cases HN u ltac:(clear - HO U1; ord HO)) as [S|S].
          - destruct (nl_abs_pos N HN u S) as (z & Hz & _). eauto.
          - destruct (nl_neg_def N HN _ _ _ U1 Hnl) as (z & Hz). destruct (nl_abs_neg N HN u z S Hz) as (w & Hw & _). eauto. }
        split; [apply (mk_proper HO); clear - HO M2 E2; ord HO|]. split; [exact Hd|]. split; [|split].
        - intros z (u & [U1 U2] & Hz). assert (Ou' : ok u) by (clear - HO U1; ord HO). destruct (sign_cases HN u Ou') as [S|S].
          + pose proof (abs_eq_pos u z S Hz) as Ez. split; cbn; [clear - HO Ez S|clear - HO Ez U2 M2]; ord HO.
          + destruct (nl_neg_def N HN _ _ _ U1 Hnl) as (m & Hm). pose proof (abs_eq_neg u m z S Hm Hz) as Ez.
            pose proof (nl_neg_anti N HN _ _ _ _ U1 Hnl Hm) as G. pose proof (neg_nonneg u m S Hm) as G2. split; cbn; [clear - HO Ez G2|clear - HO Ez G M1]; ord HO.
        - cbn. destruct (nl_abs_pos N HN n_zero Oz) as (z & Hz & Ez). exists z. split; [|exact Ez]. exists n_zero. split; [split; auto|exact Hz].
        - cbn. destruct (omax_cases nl (hi X)) as [ -> | -> ].
          + destruct (nl_abs_neg N HN _ _ E1 Hnl) as (z & Hz & Ez). exists z. split; [exists (lo X); auto|exact Ez].
          + destruct (nl_abs_pos N HN _ E2) as (z & Hz & Ez). exists z. split; [exists (hi X); auto|exact Ez]. }
      split.
      + intros Hd. destruct (Hd _ Lx) as (w & Hw). destruct (nl_abs_def N HN _ _ E1 Hw) as (nl & Hnl). destruct (Hcore nl Hnl) as (H & _). rewrite Hnl. cbn [bind]. rewrite H. eauto.
      + intros Z HZ. destruct (n_neg (lo X)) as [nl| | | |] eqn:Hnl; try discriminate. cbn [bind] in HZ. destruct (Hcore nl eq_refl) as (H & H1 & H2). rewrite H in HZ. injection HZ as <-. auto.
    - destruct (o_lt (lo X) n_zero) eqn:E1.
      + assert (Hhi : o_lt (hi X) n_zero = true) by (apply andb_false_iff in E; clear - HO E E1 Ou Oz; ord HO).
        assert (Hhi' : o_le (hi X) n_zero = true) by (clear - HO Hhi; ord HO). assert (Hlo' : o_le (lo X) n_zero = true) by (clear - HO E1; ord HO).
        assert (Hcore : forall l u, n_neg (hi X) = Ret l -> n_neg (lo X) = Ret u -> mk l u = Ret (Ivl l u) /\ defined1 n_abs X /\ is_hull (img1 n_abs X) (Ivl l u)).
        { intros l u Hl Hu. split; [apply (mk_proper HO); exact (nl_neg_anti N HN _ _ _ _ HX Hu Hl)|].
          assert (Hneg : forall w, el X w -> exists m, n_neg w = Ret m /\ o_le w n_zero = true).
          { intros w [W1 W2]. destruct (nl_neg_def N HN _ _ _ W1 Hu) as (m & Hm). exists m. split; [exact Hm|]. clear - HO W2 Hhi'. ord HO. }
          split; [|split; [|split]].
          - intros w Hw. destruct (Hneg w Hw) as (m & Hm & S). destruct (nl_abs_neg N HN w m S Hm) as (z & Hz & _). eauto.
          - intros z (w & Hw & Hz). destruct (Hneg w Hw) as (m & Hm & S). pose proof (abs_eq_neg w m z S Hm Hz) as Ez. destruct Hw as [W1 W2].
            pose proof (nl_neg_anti N HN _ _ _ _ W1 Hu Hm) as G1. pose proof (nl_neg_anti N HN _ _ _ _ W2 Hm Hl) as G2. split; cbn; [clear - HO G2 Ez|clear - HO G1 Ez]; ord HO.
          - cbn. destruct (nl_abs_neg N HN _ _ Hhi' Hl) as (z & Hz & Ez). exists z. split; [exists (hi X); auto|exact Ez].
          - cbn. destruct (nl_abs_neg N HN _ _ Hlo' Hu) as (z & Hz & Ez). exists z. split; [exists (lo X); auto|exact Ez]. }
        split.
        * intros Hd. destruct (Hd _ Ux) as (w & Hw). destruct (nl_abs_def N HN _ _ Hhi' Hw) as (l & Hl).
          destruct (Hd _ Lx) as (w' & Hw'). destruct (nl_abs_def N HN _ _ Hlo' Hw') as (u & Hu).
          destruct (Hcore l u Hl Hu) as (H & _). rewrite Hl, Hu. cbn [bind]. rewrite H. eauto.
        * intros Z HZ. destruct (n_neg (hi X)) as [l| | | |] eqn:Hl; try discriminate. cbn [bind] in HZ. destruct (n_neg (lo X)) as [u| | | |] eqn:Hu; try discriminate. cbn [bind] in HZ.
          destruct (Hcore l u eq_refl eq_refl) as (H & H1 & H2). rewrite H in HZ. injection HZ as <-. auto.
      + assert (Hlo : o_le n_zero (lo X) = true) by (apply andb_false_iff in E; clear - HO E E1 Ol Oz; ord HO).
        split; [eauto|]. intros Z HZ. injection HZ as <-.
        assert (Hpos : forall w, el X w -> exists z, n_abs w = Ret z /\ o_eq z w = true).
        { intros w [W1 W2]. apply (nl_abs_pos N HN). clear - HO Hlo W1. ord HO. }
        split; [intros w Hw; destruct (Hpos w Hw) as (z & Hz & _); eauto|]. split; [|split].
        * intros z (w & Hw & Hz). destruct (Hpos w Hw) as (z' & Hz' & Ez). rewrite Hz in Hz'. injection Hz' as <-. destruct Hw as [W1 W2]. split; [clear - HO Ez W1|clear - HO Ez W2]; ord HO.
        * destruct (Hpos _ Lx) as (z & Hz & Ez). exists z. split; [exists (lo X); auto|exact Ez].
        * destruct (Hpos _ Ux) as (z & Hz & Ez). exists z. split; [exists (hi X); auto|exact Ez].
  Qed.

  (** square is at least as tight as X*X *)
  Lemma square_in_mul dbg X Z W : proper X -> isquare dbg X = Ret Z -> imul dbg (Iv X) (Iv X) = Ret W ->
    o_le n_zero (lo Z) = true /\ proper Z /\ (nan_ivl W \/ subset Z W).
  Proof.
    intros HX HZ HW. destruct (proj2 (square_ok dbg X HX) Z HZ) as (_ & Hh). split; [|split; [exact (is_hull_proper HO _ _ Hh)|]].
    - destruct Hh as (_ & (v & (u & Hu & Hv) & E) & _). pose proof (sq_nonneg u v (el_ok HO _ _ Hu) Hv) as G. clear - HO G E. ord HO.
    - destruct (proj2 (mul_op_ok HN dbg (Iv X) (Iv X) HX HX) W HW) as (_ & Hn & Hhw).
      destruct (n_float N && (((is_ninf (lo X) || is_pinf (hi X)) && acontains (Iv X) n_zero) || (acontains (Iv X) n_zero && (is_ninf (lo X) || is_pinf (hi X))))) eqn:E.
      + left. apply Hn. now apply (mul_nan_iff HN (Iv X) (Iv X) HX HX).
      + right. apply (is_hull_least HO _ _ Hh). intros v (u & Hu & Hv). apply Hhw.
        * intros H. apply (mul_nan_iff HN (Iv X) (Iv X) HX HX) in H. cbn [alower aupper] in H. rewrite H in E. discriminate.
        * exists u, u. split; [exact Hu|]. split; [exact Hu|exact Hv].
  Qed.
End Arith.
