(** Degenerate intervals, isotonicity, algebraic laws. *)
From Coq Require Import Bool List Permutation.
From Verif Require Import Outcome SetModel Spec SetProofs SetProofs2 Num NumLaws IntervalModel IvlSpec IvlProofs ArithProofs ArithProofs2 ArithProofs3 ArithProofs4.
Import ListNotations.

Section Order.
  Context {O : ordty} (HO : ord_laws O).
  Implicit Types (X Y Z : ivl O) (u v w : O) (x y : arg O).

  Lemma omin_same v : omin v v = v. Proof. unfold omin. now destruct (o_lt v v). Qed.
  Lemma omax_same v : omax v v = v. Proof. unfold omax. now destruct (o_lt v v). Qed.
  Lemma just_ends x u : just x u -> alower x = u /\ aupper x = u.
  Proof. now intros [ -> | -> ]. Qed.
  Lemma just_aproper x u : just x u -> ok u -> aproper x.
  Proof. intros H. unfold aproper. destruct (just_ends x u H) as [ -> -> ]. auto. Qed.
  Lemma lt_irrefl v : o_lt v v = false.
  Proof. rewrite (ol_lt _ HO). destruct (o_le v v); auto. Qed.
  Lemma mk_same v : mk v v = Ret (ivl_of v).
  Proof. unfold mk, expects. now rewrite lt_irrefl. Qed.
  Lemma just_assigned x u : just x u -> aassigned x = true.
  Proof. intros [ -> | -> ]; [reflexivity|]. unfold aassigned, assigned. cbn. now rewrite lt_irrefl. Qed.

  (** comparisons *)
  Lemma degenerate_rel dbg x y u v : just x u -> just y v -> ok u -> ok v ->
    rel_eq dbg x y = Ret (bset_of (o_eq u v)) /\ rel_neq dbg x y = Ret (bset_of (negb (o_eq u v)))
    /\ rel_lt dbg x y = Ret (bset_of (o_lt u v)) /\ rel_leq dbg x y = Ret (bset_of (o_le u v))
    /\ rel_gt dbg x y = Ret (bset_of (o_lt v u)) /\ rel_geq dbg x y = Ret (bset_of (o_le v u)).
  Proof.
    intros Hx Hy Hu Hv. pose proof (just_aproper x u Hx Hu) as Px. pose proof (just_aproper y v Hy Hv) as Py.
    destruct (just_ends x u Hx) as [Lx Ux], (just_ends y v Hy) as [Ly Uy].
    unfold rel_eq, rel_neq, rel_lt, rel_leq, rel_gt, rel_geq. rewrite !(rel_pre_ok HO dbg x y Px Py). cbn [bind].
    unfold compare_eq, compare_neq, compare_lt, compare_leq. rewrite Lx, Ux, Ly, Uy.
    rewrite !(ol_lt _ HO), !(ol_eq _ HO).
    destruct (ol_total _ HO u v Hu Hv) as [H|H]; rewrite H.
    - destruct (o_le v u); cbn; repeat split; reflexivity.
    - destruct (o_le u v); cbn; repeat split; reflexivity.
  Qed.
  Lemma degenerate_minmax dbg x y u v : just x u -> just y v -> ok u -> ok v ->
    imin dbg x y = Ret (ivl_of (omin u v)) /\ imax dbg x y = Ret (ivl_of (omax u v)).
  Proof.
    intros Hx Hy Hu Hv. pose proof (just_aproper x u Hx Hu) as Px. pose proof (just_aproper y v Hy Hv) as Py.
    destruct (just_ends x u Hx) as [Lx Ux], (just_ends y v Hy) as [Ly Uy]. unfold imin, imax.
    pose proof (aproper_assigned HO x Px) as Ax. pose proof (aproper_assigned HO y Py) as Ay. rewrite Ax, Ay, Lx, Ux, Ly, Uy. cbn [andb].
    rewrite !mk_same. unfold expects_debug, expects. destruct dbg; auto.
  Qed.

  (** truth values only grow *)
  Lemma rel_exact_mono f s s' x y x' y' : rel_exact f s x y -> rel_exact f s' x' y' -> asubset x x' -> asubset y y' ->
    forall t : bool, member s t -> member s' t.
  Proof.
    intros [_ H] [_ H'] Hx Hy t Ht. apply H in Ht as (u & v & Hu & Hv & E). apply H'. exists u, v. auto.
  Qed.
  Lemma asubset_aproper x x' : aproper x -> asubset x x' -> aproper x'.
  Proof. intros Hx H. exact (ael_aproper HO x' _ (H _ (ael_lower HO x Hx))). Qed.
  Lemma relational_mono dbg x y x' y' : aproper x -> aproper y -> asubset x x' -> asubset y y' ->
    Forall (fun rel : bool -> arg O -> arg O -> outcome bset => exists s s', rel dbg x y = Ret s /\ rel dbg x' y' = Ret s' /\ forall t, member s t -> member s' t)
      [rel_eq; rel_neq; rel_lt; rel_leq; rel_gt; rel_geq].
  Proof.
    intros Px Py Sx Sy. pose proof (asubset_aproper _ _ Px Sx) as Px'. pose proof (asubset_aproper _ _ Py Sy) as Py'.
    destruct (relational_exact HO dbg x y Px Py) as ((s1 & R1 & E1) & (s2 & R2 & E2) & (s3 & R3 & E3) & (s4 & R4 & E4) & (s5 & R5 & E5) & (s6 & R6 & E6)).
    destruct (relational_exact HO dbg x' y' Px' Py') as ((s1' & R1' & E1') & (s2' & R2' & E2') & (s3' & R3' & E3') & (s4' & R4' & E4') & (s5' & R5' & E5') & (s6' & R6' & E6')).
    repeat constructor; eexists; eexists; (split; [eassumption|]); (split; [eassumption|]); eapply rel_exact_mono; eassumption.
  Qed.

  (** laws *)
  Lemma hull_agree P X Y : is_hull P X -> is_hull P Y -> agree X Y.
  Proof. intros HX HY. right. split; [exact (is_hull_proper HO _ _ HX)|]. split; [exact (is_hull_proper HO _ _ HY)|]. exact (is_hull_unique HO _ _ _ HX HY). Qed.
  Lemma min_max_laws dbg x y X : aproper x -> aproper y -> proper X ->
    (exists Z Z', imin dbg x y = Ret Z /\ imin dbg y x = Ret Z' /\ agree Z Z')
    /\ (exists Z Z', imax dbg x y = Ret Z /\ imax dbg y x = Ret Z' /\ agree Z Z')
    /\ imin dbg (Iv X) (Iv X) = Ret X /\ imax dbg (Iv X) (Iv X) = Ret X.
  Proof.
    intros Px Py PX. repeat split.
    - destruct (imin_hull HO dbg x y Px Py) as (Z & HZ & Hh). destruct (imin_hull HO dbg y x Py Px) as (Z' & HZ' & Hh').
      exists Z, Z'. split; [exact HZ|]. split; [exact HZ'|].
      destruct (imin_hull HO dbg x y Px Py) as (Z0 & HZ0 & _). unfold imin in HZ, HZ'.
      right. split; [exact (is_hull_proper HO _ _ Hh)|]. split; [exact (is_hull_proper HO _ _ Hh')|].
      destruct (expects_debug dbg (aassigned x && aassigned y)); try discriminate. destruct (expects_debug dbg (aassigned y && aassigned x)); try discriminate.
      cbn in HZ, HZ'. apply (mk_iff) in HZ as [-> _]. apply mk_iff in HZ' as [-> _].
      assert (C : forall p q : O, ok p -> ok q -> o_eq (omin p q) (omin q p) = true).
      { intros p q Hp Hq. pose proof (omin_l HO p q Hp Hq). pose proof (omin_r HO p q Hp Hq). pose proof (omin_l HO q p Hq Hp). pose proof (omin_r HO q p Hq Hp).
        pose proof (@omin_glb O q p (omin p q)). pose proof (@omin_glb O p q (omin q p)). rewrite (ol_eq _ HO). apply andb_true_iff. auto. }
      pose proof (C _ _ (ael_ok HO _ _ (ael_lower HO x Px)) (ael_ok HO _ _ (ael_lower HO y Py))) as C1.
      pose proof (C _ _ (ael_ok HO _ _ (ael_upper HO x Px)) (ael_ok HO _ _ (ael_upper HO y Py))) as C2.
      intros v. unfold el. cbn. clear - HO C1 C2. split; intros [H1 H2]; split; ord HO.
    - destruct (imax_hull HO dbg x y Px Py) as (Z & HZ & Hh). destruct (imax_hull HO dbg y x Py Px) as (Z' & HZ' & Hh').
      exists Z, Z'. split; [exact HZ|]. split; [exact HZ'|]. unfold imax in HZ, HZ'.
      right. split; [exact (is_hull_proper HO _ _ Hh)|]. split; [exact (is_hull_proper HO _ _ Hh')|].
      destruct (expects_debug dbg (aassigned x && aassigned y)); try discriminate. destruct (expects_debug dbg (aassigned y && aassigned x)); try discriminate.
      cbn in HZ, HZ'. apply (mk_iff) in HZ as [-> _]. apply mk_iff in HZ' as [-> _].
      assert (C : forall p q : O, ok p -> ok q -> o_eq (omax p q) (omax q p) = true).
      { intros p q Hp Hq. pose proof (omax_l HO p q Hp Hq). pose proof (omax_r HO p q Hp Hq). pose proof (omax_l HO q p Hq Hp). pose proof (omax_r HO q p Hq Hp).
        pose proof (@omax_lub O q p (omax p q)). pose proof (@omax_lub O p q (omax q p)). rewrite (ol_eq _ HO). apply andb_true_iff. auto. }
      pose proof (C _ _ (ael_ok HO _ _ (ael_lower HO x Px)) (ael_ok HO _ _ (ael_lower HO y Py))) as C1.
      pose proof (C _ _ (ael_ok HO _ _ (ael_upper HO x Px)) (ael_ok HO _ _ (ael_upper HO y Py))) as C2.
      intros v. unfold el. cbn. clear - HO C1 C2. split; intros [H1 H2]; split; ord HO.
    - unfold imin. cbn. rewrite !omin_same, (proper_assigned HO X PX), (mk_proper HO (lo X) (hi X) PX). destruct X, dbg; reflexivity.
    - unfold imax. cbn. rewrite !omax_same, (proper_assigned HO X PX), (mk_proper HO (lo X) (hi X) PX). destruct X, dbg; reflexivity.
  Qed.
  Lemma merge_laws X Y Z : proper X -> proper Y -> proper Z ->
    (exists A B, merge X [Y] = Ret A /\ merge Y [X] = Ret B /\ agree A B)
    /\ (exists A B C D, merge X [Y] = Ret A /\ merge A [Z] = Ret B /\ merge Y [Z] = Ret C /\ merge X [C] = Ret D /\ agree B D
          /\ exists E, merge X [Y; Z] = Ret E /\ agree B E)
    /\ merge X [X] = Ret X.
  Proof.
    intros HX HY HZ.
    assert (M : forall P Q, proper P -> proper Q -> exists A, merge P [Q] = Ret A /\ is_hull (fun v => el P v \/ el Q v) A).
    { intros P Q HP HQ. destruct (merge_hull HO P [Q] HP (Forall_cons _ HQ (Forall_nil _))) as (A & HA & Hh). exists A. split; [exact HA|].
      eapply is_hull_ext; [|exact Hh]. intros v. split.
      - intros (R & [<-|[<-|[]]] & Hv); auto.
      - intros [H|H]; [exists P|exists Q]; cbn; auto. }
    assert (U : forall P Q W R S T, proper P -> proper Q -> proper W -> is_hull (fun v => el P v \/ el Q v) R -> is_hull (fun v => el R v \/ el W v) S -> is_hull (fun v => el P v \/ el Q v \/ el W v) T -> agree S T).
    { intros P Q W R S T HP HQ HW H1 H2 H3. eapply hull_agree; [|exact H3].
      destruct H1 as (A1 & (a1 & P1 & E1) & (b1 & Q1 & F1)), H2 as (A2 & (a2 & P2 & E2) & (b2 & Q2 & F2)). split; [|split].
      - intros v [H|[H|H]]; apply A2; auto.
      - destruct P2 as [P2|P2]; [|exists a2; auto]. exists a1. split; [tauto|]. destruct P2 as [G1 G2], (A2 a1 (or_introl (A1 _ P1))) as [G3 G4]. clear - HO E1 E2 G1 G3. ord HO.
      - destruct Q2 as [Q2|Q2]; [|exists b2; auto]. exists b1. split; [tauto|]. destruct Q2 as [G1 G2], (A2 b1 (or_introl (A1 _ Q1))) as [G3 G4]. clear - HO F1 F2 G2 G4. ord HO. }
    assert (Sy : forall A B : ivl O, agree A B -> agree B A). { intros A B [[H1 H2]|(H1 & H2 & H3)]; [left; auto|right]. split; [auto|]. split; [auto|]. intros v. symmetry. apply H3. }
    assert (Tr : forall A B C : ivl O, agree A B -> agree B C -> agree A C).
    { intros A B C [[H1 H2]|(H1 & H2 & H3)] [[G1 G2]|(G1 & G2 & G3)]; [left; auto| | |right].
      - destruct H2 as [H2 _]. unfold nan in H2. rewrite (ol_eq _ HO) in H2. pose proof (el_lower HO B G1) as [K _]. rewrite K in H2. discriminate.
      - destruct G1 as [G1 _]. unfold nan in G1. rewrite (ol_eq _ HO) in G1. pose proof (el_lower HO B H2) as [K _]. rewrite K in G1. discriminate.
      - split; [auto|]. split; [auto|]. intros v. rewrite (H3 v). apply G3. }
    split; [|split].
    - destruct (M X Y HX HY) as (A & HA & Ah). destruct (M Y X HY HX) as (B & HB & Bh). exists A, B. split; [exact HA|]. split; [exact HB|].
      eapply hull_agree; [exact Ah|]. eapply is_hull_ext; [|exact Bh]. intros v. cbn. tauto.
    - destruct (M X Y HX HY) as (A & HA & Ah). destruct (M A Z (is_hull_proper HO _ _ Ah) HZ) as (B & HB & Bh).
      destruct (M Y Z HY HZ) as (C & HC & Ch). destruct (M X C HX (is_hull_proper HO _ _ Ch)) as (D & HD & Dh).
      destruct (merge_hull HO X [Y; Z] HX (Forall_cons _ HY (Forall_cons _ HZ (Forall_nil _)))) as (E & HE & Eh).
      assert (Eh' : is_hull (fun v => el X v \/ el Y v \/ el Z v) E).
      { eapply is_hull_ext; [|exact Eh]. intros v. split.
        - intros (R & [<-|[<-|[<-|[]]]] & Hv); auto.
        - intros [H|[H|H]]; [exists X|exists Y|exists Z]; cbn; auto. }
      exists A, B, C, D. split; [exact HA|]. split; [exact HB|]. split; [exact HC|]. split; [exact HD|].
      pose proof (U X Y Z A B E HX HY HZ Ah Bh Eh') as K1.
      assert (K2 : agree D E).
      { apply (U Y Z X C D E HY HZ HX Ch); [eapply is_hull_ext; [|exact Dh]; cbn; tauto|eapply is_hull_ext; [|exact Eh']; cbn; tauto]. }
      split; [eapply Tr; [exact K1|apply Sy, K2]|]. exists E. auto.
    - cbn. unfold iassign. rewrite (proper_assigned HO X HX). cbn. unfold assign_bounds. rewrite omin_same, omax_same. now destruct X.
  Qed.
End Order.

Section Arith.
  Context {N : num} (HN : num_laws N).
  Let HO := nl_ord N HN.
  Implicit Types (X Y Z : ivl N) (u v w : N) (x y : arg N).

  (** ** degenerate operands *)
  Lemma nan_interval_eq : @nan_interval N = Ret (ivl_of n_nan). Proof. apply (mk_same HO). Qed.
  Lemma hull2_same u : hull2 u u = Ret (ivl_of u). Proof. unfold hull2. rewrite omin_same, omax_same. apply (mk_same HO). Qed.
  Lemma hull4_same u : hull4 u u u u = Ret (ivl_of u). Proof. unfold hull4. rewrite !omin_same, !omax_same. apply (mk_same HO). Qed.
  Lemma just_pre dbg x y u v : just x u -> just y v -> expects_debug dbg (aassigned x && aassigned y) = Ret tt.
  Proof. intros Hx Hy. rewrite (just_assigned HO x u Hx), (just_assigned HO y v Hy). now destruct dbg. Qed.

  Lemma degenerate_add dbg x y u v : just x u -> just y v -> ok u -> ok v ->
    like_scalar n_add (iadd dbg x y) u v /\ (n_add u v = UB -> iadd dbg x y = UB).
  Proof.
    intros Hx Hy Hu Hv. destruct (just_ends x u Hx) as [Lx Ux], (just_ends y v Hy) as [Ly Uy].
    destruct (add_op_ok HN dbg x y (just_aproper x u Hx Hu) (just_aproper y v Hy Hv)) as [_ K].
    unfold iadd in *. rewrite (just_pre dbg x y u v Hx Hy), Lx, Ux, Ly, Uy in *. cbn [bind] in *.
    assert (G : forall s, n_add u v = Ret s -> ok s -> n_float N && (is_ninf u && is_pinf v || is_ninf v && is_pinf u) = false).
    { intros s Hs Os. apply (nl_add_nan N HN u v s Hu Hv Hs) in Os. apply not_true_is_false. rewrite andb_true_iff, orb_true_iff, !andb_true_iff. tauto. }
    split; [split|].
    - intros s Hs Os. rewrite not_nan_ok in Os by exact HN. rewrite (G s Hs Os), Hs. cbn. apply (mk_same HO).
    - intros s Hs Ns. assert (Hn : nan_pair n_add x y) by (exists u, v, s; split; [|split; [|auto]]; unfold ael; rewrite ?Lx, ?Ux, ?Ly, ?Uy; split; assumption).
      destruct (n_float N && _).
      + rewrite nan_interval_eq in *. eexists. split; [reflexivity|]. exact (proj1 (proj2 (K _ eq_refl)) Hn).
      + rewrite Hs in *. cbn in *. rewrite (mk_same HO) in *. eexists. split; [reflexivity|]. exact (proj1 (proj2 (K _ eq_refl)) Hn).
    - intros Hs. destruct (n_float N && _) eqn:E; [|now rewrite Hs]. exfalso. apply andb_true_iff in E as [E _].
      destruct (nl_float_total N HN E u v) as (_ & _ & (z & Hz) & _). congruence.
  Qed.
  Lemma degenerate_sub dbg x y u v : just x u -> just y v -> ok u -> ok v ->
    like_scalar n_sub (isub dbg x y) u v /\ (n_sub u v = UB -> isub dbg x y = UB).
  Proof.
    intros Hx Hy Hu Hv. destruct (just_ends x u Hx) as [Lx Ux], (just_ends y v Hy) as [Ly Uy].
    destruct (sub_op_ok HN dbg x y (just_aproper x u Hx Hu) (just_aproper y v Hy Hv)) as [_ K].
    unfold isub in *. rewrite (just_pre dbg x y u v Hx Hy), Lx, Ux, Ly, Uy in *. cbn [bind] in *.
    assert (G : forall s, n_sub u v = Ret s -> ok s -> n_float N && (is_ninf u && is_ninf v || is_pinf v && is_pinf u) = false).
    { intros s Hs Os. apply (nl_sub_nan N HN u v s Hu Hv Hs) in Os. apply not_true_is_false. rewrite andb_true_iff, orb_true_iff, !andb_true_iff. tauto. }
    split; [split|].
    - intros s Hs Os. rewrite not_nan_ok in Os by exact HN. rewrite (G s Hs Os), Hs. cbn. apply (mk_same HO).
    - intros s Hs Ns. assert (Hn : nan_pair n_sub x y) by (exists u, v, s; split; [|split; [|auto]]; unfold ael; rewrite ?Lx, ?Ux, ?Ly, ?Uy; split; assumption).
      destruct (n_float N && _).
      + rewrite nan_interval_eq in *. eexists. split; [reflexivity|]. exact (proj1 (proj2 (K _ eq_refl)) Hn).
      + rewrite Hs in *. cbn in *. rewrite (mk_same HO) in *. eexists. split; [reflexivity|]. exact (proj1 (proj2 (K _ eq_refl)) Hn).
    - intros Hs. destruct (n_float N && _) eqn:E; [|now rewrite Hs]. exfalso. apply andb_true_iff in E as [E _].
      destruct (nl_float_total N HN E u v) as (_ & _ & _ & (z & Hz) & _). congruence.
  Qed.
  Lemma corners_same (f : N -> N -> outcome N) x y u v : just x u -> just y v ->
    (match x, y with
         | Sc a, _ => v1 <- f a (alower y) ;; v2 <- f a (aupper y) ;; hull2 v1 v2
         | Iv X, Sc b => v1 <- f (lo X) b ;; v2 <- f (hi X) b ;; hull2 v1 v2
         | Iv X, Iv Y =>
             v1 <- f (lo X) (lo Y) ;; v2 <- f (lo X) (hi Y) ;;
             v3 <- f (hi X) (lo Y) ;; v4 <- f (hi X) (hi Y) ;; hull4 v1 v2 v3 v4
         end) = s <- f u v ;; Ret (ivl_of s).
  Proof. intros [ -> | -> ] [ -> | -> ]; cbn; destruct (f u v) as [s| | | |]; cbn; try reflexivity; auto using hull2_same, hull4_same. Qed.
  Lemma degenerate_mul dbg x y u v : just x u -> just y v -> ok u -> ok v ->
    like_scalar n_mul (imul dbg x y) u v /\ (n_mul u v = UB -> imul dbg x y = UB).
  Proof.
    intros Hx Hy Hu Hv. destruct (just_ends x u Hx) as [Lx Ux], (just_ends y v Hy) as [Ly Uy].
    pose proof (just_aproper x u Hx Hu) as Px. pose proof (just_aproper y v Hy Hv) as Py.
    destruct (mul_op_ok HN dbg x y Px Py) as [_ K]. pose proof (mul_nan_iff HN x y Px Py) as M.
    assert (A : ael x u) by (unfold ael; rewrite Lx, Ux; split; assumption). assert (B : ael y v) by (unfold ael; rewrite Ly, Uy; split; assumption).
    unfold imul in *. rewrite (just_pre dbg x y u v Hx Hy) in *. cbn [bind] in *. rewrite (corners_same n_mul x y u v Hx Hy) in *.
    split; [split|].
    - intros s Hs Os. rewrite not_nan_ok in Os by exact HN. rewrite Hs in *. cbn [bind] in *.
      destruct (n_float N && _) eqn:E; [|reflexivity]. exfalso. destruct (proj1 M eq_refl) as (u' & v' & s' & [A1 A2] & [B1 B2] & Hs' & Ns').
      rewrite Lx in A1. rewrite Ux in A2. rewrite Ly in B1. rewrite Uy in B2.
      apply (nan_iff HN) in Ns'. apply Ns'. apply (nl_mul_nan N HN u' v' s' (proj2 (ol_ok _ HO _ _ A1)) (proj2 (ol_ok _ HO _ _ B1)) Hs').
      apply (nl_mul_nan N HN u v s Hu Hv Hs) in Os. unfold infinite, is_zero in *.
      intros [[[Hf H1] H2]|[H1 [Hf H2]]]; apply Os; [left|right].
      + split; [split; [exact Hf|]|]; [destruct H1; [left|right]|]; clear - HO A1 A2 B1 B2 H H2 || clear - HO A1 A2 B1 B2 H2; ord HO.
      + split; [clear - HO A1 A2 H1; ord HO|]. split; [exact Hf|]. destruct H2; [left|right]; clear - HO B1 B2 H; ord HO.
    - intros s Hs Ns. assert (Hn : nan_pair n_mul x y) by (exists u, v, s; auto).
      apply M in Hn as E. rewrite E in *.
      rewrite nan_interval_eq in *. eexists. split; [reflexivity|]. exact (proj1 (proj2 (K _ eq_refl)) Hn).
    - intros Hs. destruct (n_float N && _) eqn:E; [|now rewrite Hs]. exfalso. apply andb_true_iff in E as [E _].
      destruct (nl_float_total N HN E u v) as (_ & _ & _ & _ & (z & Hz) & _). congruence.
  Qed.
  Lemma degenerate_div dbg x y u v : just x u -> just y v -> ok u -> ok v ->
    like_scalar n_div (idiv dbg x y) u v /\ (n_div u v = UB -> idiv dbg x y = UB \/ (is_zero v /\ idiv dbg x y = Trap)).
  Proof.
    intros Hx Hy Hu Hv. destruct (just_ends x u Hx) as [Lx Ux], (just_ends y v Hy) as [Ly Uy].
    pose proof (just_aproper x u Hx Hu) as Px. pose proof (just_aproper y v Hy Hv) as Py.
    assert (A : ael x u) by (unfold ael; rewrite Lx, Ux; split; assumption). assert (B : ael y v) by (unfold ael; rewrite Ly, Uy; split; assumption).
    pose proof (corners_same n_div x y u v Hx Hy) as C. fold (div_corners x y) in C.
    destruct (n_float N) eqn:Hf.
    - destruct (idiv_float HN dbg x y Px Py Hf) as (D1 & _ & D3). pose proof (div_nan_iff HN x y Px Py Hf) as M.
      assert (St : o_lt (alower y) n_zero && o_lt n_zero (aupper y) = false) by (rewrite Ly, Uy; clear - HO Hv; destruct (o_lt v n_zero) eqn:E; [|reflexivity]; pose proof HO; cbn; ord HO).
      assert (G : forall s, n_div u v = Ret s -> nan_pair n_div x y -> nan s).
      { intros s Hs Hn. apply M in Hn. rewrite Lx, Ux, Ly, Uy in Hn. apply (nan_iff HN). intros Os. apply (nl_div_nan N HN u v s Hu Hv Hs) in Os.
        rewrite !andb_true_iff, !infinite_b in Hn. apply Os. destruct Hn as [[H1 H2]|[[H1 H2] [H3 H4]]]; [left; auto|right]. unfold is_zero. clear - HO H1 H2 H3 H4. split; ord HO. }
      split; [split|].
      + intros s Hs Os. rewrite D3; [|intros Hn; exact (Os (G s Hs Hn))|exact St]. rewrite C, Hs. reflexivity.
      + intros s Hs Ns. rewrite D1 by (exists u, v, s; auto). exact (nan_interval_nan HN Hf).
      + intros Hs. destruct (nl_float_total N HN Hf u v) as (_ & _ & _ & _ & _ & (z & Hz)). congruence.
    - assert (Is : forall s, ok s) by exact (nl_int_ok N HN Hf).
      assert (Zf : is_zero v \/ zero_free y). { unfold is_zero, zero_free. rewrite Ly, Uy. destruct (sign_cases HN v Hv); pose proof (ok_zero HN); destruct (o_eq v n_zero) eqn:E; auto; right; clear - HO H E H0 Hv; [left|right]; ord HO. }
      split; [split|].
      + intros s Hs _. destruct Zf as [Zf|Zf]; [rewrite (nl_div_zero_int N HN Hf u v Zf) in Hs; discriminate|].
        unfold zero_free in Zf. rewrite Ly, Uy in Zf.
        assert (E : o_le v n_zero && o_le n_zero v = false) by (clear - HO Zf; ord HO).
        unfold idiv. rewrite (just_pre dbg x y u v Hx Hy). cbn [bind]. rewrite Hf.
        destruct Hx as [ -> | -> ], Hy as [ -> | -> ]; cbn; rewrite ?E, Hs; cbn; auto using hull2_same, hull4_same.
      + intros s _ Ns. apply (nan_iff HN) in Ns. destruct (Ns (Is s)).
      + intros Hs. unfold idiv. rewrite (just_pre dbg x y u v Hx Hy). cbn [bind]. rewrite Hf. unfold is_zero.
        destruct (o_le v n_zero && o_le n_zero v) eqn:E.
        * assert (Hz : o_eq v n_zero = true) by (rewrite (ol_eq _ HO); exact E).
          destruct Hx as [ -> | -> ], Hy as [ -> | -> ]; cbn; rewrite ?E, ?Hs; cbn; auto.
        * destruct Hx as [ -> | -> ], Hy as [ -> | -> ]; cbn; rewrite ?E, Hs; cbn; auto.
  Qed.
  Lemma degenerate_unary dbg u : ok u ->
    (forall z, n_neg u = Ret z -> ineg dbg (ivl_of u) = Ret (ivl_of z))
    /\ (forall z, nsquare u = Ret z -> exists Z, isquare dbg (ivl_of u) = Ret Z /\ matches Z z = true)
    /\ (forall z, ncube u = Ret z -> icube dbg (ivl_of u) = Ret (ivl_of z))
    /\ (forall z, nabs u = Ret z -> exists Z, iabs dbg (ivl_of u) = Ret Z /\ matches Z z = true)
    /\ (exists t, isgn dbg (ivl_of u) = Ret (sset_of t) /\ has_sign u t).
  Proof.
    intros Hu. assert (P : proper (ivl_of u)) by exact Hu. pose proof (pre1_ok HN dbg _ P) as E. cbn in E.
    assert (Hull : forall f F, op1_ok f F (ivl_of u) -> (forall v w z p, o_eq v w = true -> f v = Ret z -> f w = Ret p -> o_eq z p = true) -> (forall z, f u = Ret z -> defined1 f (ivl_of u)) ->
       forall z, f u = Ret z -> exists Z, F = Ret Z /\ matches Z z = true).
    { intros f F [H1 H2] Hc Hd z Hz. destruct (H1 (Hd z Hz)) as (Z & HZ). exists Z. split; [exact HZ|]. destruct (H2 Z HZ) as (_ & Hh & (a & (a' & [A1 A2] & Ha) & Ea) & (b & (b' & [B1 B2] & Hb) & Eb)).
      unfold matches. cbn in *. assert (Ca : o_eq a z = true) by (eapply (Hc a' u); eauto; clear - HO A1 A2; ord HO).
      assert (Cb : o_eq b z = true) by (eapply (Hc b' u); eauto; clear - HO B1 B2; ord HO). clear - HO Ca Cb Ea Eb. apply andb_true_iff. split; ord HO. }
    repeat split.
    - intros z Hz. unfold ineg. rewrite E. cbn. rewrite Hz. cbn. apply (mk_same HO).
    - apply Hull; [exact (square_ok HN dbg _ P)| |].
      + intros v w z p Hvw Hz Hp. assert (I1 : inner v w \/ inner w v) by (unfold inner; pose proof (ok_zero HN); assert (Ov : ok v) by (clear - HO Hvw; ord HO); destruct (sign_cases HN v Ov); clear - HO Hvw H0; left; [left|right]; split; ord HO).
        assert (Ov : ok v) by (clear - HO Hvw; ord HO).
        assert (I2 : inner v w) by (unfold inner; destruct (sign_cases HN v Ov) as [H|H]; clear - HO Hvw H; [left|right]; split; ord HO).
        assert (I3 : inner w v) by (unfold inner; destruct (sign_cases HN v Ov) as [H|H]; clear - HO Hvw H; [left|right]; split; ord HO).
        pose proof (sq_le HN _ _ _ _ I2 Hz Hp) as G1. pose proof (sq_le HN _ _ _ _ I3 Hp Hz) as G2. clear - HO G1 G2. ord HO.
      + intros z Hz v [V1 V2]. cbn in *. assert (I : inner v u) by (unfold inner; destruct (sign_cases HN v (proj2 (ol_ok _ HO _ _ V1))) as [H|H]; clear - HO V1 V2 H; [left|right]; split; ord HO).
        exact (sq_def HN v u z I Hz).
    - intros z Hz. unfold icube. rewrite E. cbn. rewrite Hz. cbn. apply (mk_same HO).
    - apply Hull; [exact (iabs_ok HN dbg _ P)| |].
      + intros v w z p Hvw Hz Hp. assert (Ov : ok v) by (clear - HO Hvw; ord HO). unfold nabs in *. destruct (sign_cases HN v Ov) as [H|H].
        * assert (Hw : o_le n_zero w = true) by (clear - HO Hvw H; ord HO). pose proof (abs_eq_pos HN v z H Hz) as G1. pose proof (abs_eq_pos HN w p Hw Hp) as G2. clear - HO Hvw G1 G2. ord HO.
        * assert (Hw : o_le w n_zero = true) by (clear - HO Hvw H; ord HO).
          destruct (nl_abs_def N HN v z H Hz) as (nv & Hnv). destruct (nl_abs_def N HN w p Hw Hp) as (nw & Hnw).
          pose proof (abs_eq_neg HN v nv z H Hnv Hz) as G1. pose proof (abs_eq_neg HN w nw p Hw Hnw Hp) as G2.
          assert (V1 : o_le v w = true) by (clear - HO Hvw; ord HO). assert (V2 : o_le w v = true) by (clear - HO Hvw; ord HO).
          pose proof (nl_neg_anti N HN _ _ _ _ V1 Hnv Hnw) as G3. pose proof (nl_neg_anti N HN _ _ _ _ V2 Hnw Hnv) as G4. clear - HO G1 G2 G3 G4. ord HO.
      + intros z Hz v [V1 V2]. cbn in *. unfold nabs in *. assert (Ov := proj2 (ol_ok _ HO _ _ V1)). destruct (sign_cases HN v Ov) as [H|H].
        * destruct (nl_abs_pos N HN v H) as (q & Hq & _). eauto.
        * assert (Hw : o_le u n_zero = true) by (clear - HO V1 V2 H; ord HO). destruct (nl_abs_def N HN u z Hw Hz) as (nu & Hnu). destruct (nl_neg_def N HN u v nu V1 Hnu) as (nv & Hnv).
          destruct (nl_abs_neg N HN v nv H Hnv) as (q & Hq & _). eauto.
    - unfold isgn. rewrite E. cbn. pose proof (ok_zero HN) as Oz. unfold has_sign.
      assert (T : o_lt n_zero u = true \/ o_lt u n_zero = true \/ o_eq u n_zero = true). { destruct (sign_cases HN u Hu) as [H|H]; destruct (o_eq u n_zero) eqn:E0; auto; clear - HO H E0 Hu Oz; [left|right; left]; ord HO. }
      destruct T as [T|[T|T]].
      + exists positive_sign. split; [|exact T]. assert (o_lt u n_zero = false) by (clear - HO T; ord HO). assert (o_le u n_zero && o_le n_zero u = false) by (clear - HO T; ord HO). rewrite T, H, H0. reflexivity.
      + exists negative_sign. split; [|exact T]. assert (o_lt n_zero u = false) by (clear - HO T; ord HO). assert (o_le u n_zero && o_le n_zero u = false) by (clear - HO T; ord HO). rewrite T, H, H0. reflexivity.
      + exists zero_sign. split; [|exact T]. assert (o_lt n_zero u = false) by (clear - HO T; ord HO). assert (o_lt u n_zero = false) by (clear - HO T; ord HO). assert (o_le u n_zero && o_le n_zero u = true) by (clear - HO T; ord HO). rewrite H, H0, H1. reflexivity.
  Qed.

  (** ** isotonicity *)
  Lemma isotonic2 (f : N -> N -> outcome N) F F' x y x' y' : op_ok f F x y -> op_ok f F' x' y' -> asubset x x' -> asubset y y' ->
    forall Z', F' = Ret Z' -> ~ nan_ivl Z' -> exists Z, F = Ret Z /\ proper Z /\ subset Z Z'.
  Proof.
    intros [H1 H2] [_ H2'] Sx Sy Z' HZ' Hn. destruct (H2' Z' HZ') as (Hd & Hn1 & Hh).
    assert (Hd' : defined2 f x y) by (intros u v Hu Hv; apply Hd; auto).
    destruct (H1 Hd') as (Z & HZ). exists Z. split; [exact HZ|]. destruct (H2 Z HZ) as (_ & _ & Hz).
    assert (Np : ~ nan_pair f x y). { intros (u & v & s & Hu & Hv & Hs & Ns). apply Hn, Hn1. exists u, v, s. auto. }
    assert (Np' : ~ nan_pair f x' y') by auto.
    split; [exact (is_hull_proper HO _ _ (Hz Np))|]. apply (is_hull_least HO _ _ (Hz Np)). intros w (u & v & Hu & Hv & Hw). apply (Hh Np'). exists u, v. auto.
  Qed.
  Lemma isotonic1 (f : N -> outcome N) F F' X X' : op1_ok f F X -> op1_ok f F' X' -> subset X X' ->
    forall Z', F' = Ret Z' -> exists Z, F = Ret Z /\ proper Z /\ subset Z Z'.
  Proof.
    intros [H1 H2] [_ H2'] S Z' HZ'. destruct (H2' Z' HZ') as (Hd & Hh).
    assert (Hd' : defined1 f X) by (intros u Hu; apply Hd; auto).
    destruct (H1 Hd') as (Z & HZ). exists Z. split; [exact HZ|]. destruct (H2 Z HZ) as (_ & Hz).
    split; [exact (is_hull_proper HO _ _ Hz)|]. apply (is_hull_least HO _ _ Hz). intros w (u & Hu & Hw). apply Hh. exists u. auto.
  Qed.
  Lemma isotonic_arith dbg x y x' y' : aproper x -> aproper y -> asubset x x' -> asubset y y' ->
    Forall (fun F : bool -> arg N -> arg N -> outcome (ivl N) => forall Z', F dbg x' y' = Ret Z' -> ~ nan_ivl Z' -> exists Z, F dbg x y = Ret Z /\ proper Z /\ subset Z Z')
      [iadd; isub; imul; imin; imax].
  Proof.
    intros Px Py Sx Sy. pose proof (asubset_aproper HO _ _ Px Sx) as Px'. pose proof (asubset_aproper HO _ _ Py Sy) as Py'.
    assert (M : forall F f, (forall x y, aproper x -> aproper y -> exists Z, F x y = Ret Z /\ is_hull (img2 f x y) Z) -> forall Z', F x' y' = Ret Z' -> exists Z : ivl N, F x y = Ret Z /\ proper Z /\ subset Z Z').
    { intros F f H Z' HZ'. destruct (H x y Px Py) as (Z & HZ & Hh). destruct (H x' y' Px' Py') as (Z1 & HZ1 & Hh'). rewrite HZ' in HZ1. injection HZ1 as <-.
      exists Z. split; [exact HZ|]. split; [exact (is_hull_proper HO _ _ Hh)|]. apply (is_hull_least HO _ _ Hh). intros w (u & v & Hu & Hv & Hw). apply Hh'. exists u, v. auto. }
    repeat constructor.
    - eapply isotonic2; [exact (add_op_ok HN dbg x y Px Py)|exact (add_op_ok HN dbg x' y' Px' Py')|exact Sx|exact Sy].
    - eapply isotonic2; [exact (sub_op_ok HN dbg x y Px Py)|exact (sub_op_ok HN dbg x' y' Px' Py')|exact Sx|exact Sy].
    - eapply isotonic2; [exact (mul_op_ok HN dbg x y Px Py)|exact (mul_op_ok HN dbg x' y' Px' Py')|exact Sx|exact Sy].
    - intros Z' HZ' _. exact (M _ _ (imin_hull HO dbg) Z' HZ').
    - intros Z' HZ' _. exact (M _ _ (imax_hull HO dbg) Z' HZ').
  Qed.
  Lemma isotonic_div dbg x y x' y' : aproper x -> aproper y -> asubset x x' -> asubset y y' ->
    zero_free y' \/ o_lt (alower y') n_zero && o_lt n_zero (aupper y') = true ->
    forall Z', idiv dbg x' y' = Ret Z' -> ~ nan_ivl Z' -> exists Z, idiv dbg x y = Ret Z /\ proper Z /\ subset Z Z'.
  Proof.
    intros Px Py Sx Sy H Z' HZ' Hn. pose proof (asubset_aproper HO _ _ Px Sx) as Px'. pose proof (asubset_aproper HO _ _ Py Sy) as Py'.
    destruct H as [H|H].
    - assert (Hy : zero_free y). { apply (zero_free_iff HN y Py). intros (v & Hv & Zv). apply (zero_free_iff HN y' Py') in H. apply H. exists v. auto. }
      exact (isotonic2 _ _ _ _ _ _ _ (div_zero_free HN dbg x y Px Py Hy) (div_zero_free HN dbg x' y' Px' Py' H) Sx Sy Z' HZ' Hn).
    - destruct (n_float N) eqn:Hf.
      + destruct (div_nan HN dbg x' y' Px' Py' Hf) as (Z1 & HZ1 & Hn1 & _). rewrite HZ' in HZ1. injection HZ1 as <-.
        assert (Np' : ~ nan_pair n_div x' y') by auto.
        assert (Np : ~ nan_pair n_div x y). { intros (u & v & s & Hu & Hv & Hs & Ns). apply Np'. exists u, v, s. auto. }
        destruct (idiv_float HN dbg x' y' Px' Py' Hf) as (_ & D2 & _). rewrite (D2 Np' H), (inf_interval_ret HN) in HZ'. injection HZ' as <-.
        destruct (div_nan HN dbg x y Px Py Hf) as (Z & HZ & _ & HZp). exists Z. split; [exact HZ|]. split; [exact (HZp Np)|]. intros v Hv. apply (el_inf_interval HN). exact (el_ok HO _ _ Hv).
      + exfalso. destruct y' as [b|Y'].
        * cbn in H. pose proof (ok_zero HN). clear - HO H. ord HO.
        * destruct (straddle_iff HN (Iv Y') Py' H) as (v & Hv & Zv). rewrite (proj2 (div_int_trap HN dbg x' Y' Px' Py' Hf)) in HZ' by eauto. discriminate.
  Qed.
  Lemma isotonic_unary dbg X X' : proper X -> subset X X' ->
    Forall (fun F : bool -> ivl N -> outcome (ivl N) => forall Z', F dbg X' = Ret Z' -> exists Z, F dbg X = Ret Z /\ proper Z /\ subset Z Z')
      [ineg; isquare; icube; iabs].
  Proof.
    intros PX S. assert (PX' : proper X') by (apply (proper_iff HO); exists (lo X); apply S, (el_lower HO), PX).
    assert (Ng : forall X, proper X -> op1_ok n_neg (ineg dbg X) X) by (intros Y HY; destruct (neg_hull HN dbg Y HY) as (A & B & _); split; auto).
    repeat constructor; eapply isotonic1; eauto using (square_ok HN), (icube_ok HN), (iabs_ok HN).
  Qed.

  (** ** algebraic laws *)
  Lemma add_comm_ivl dbg x y : iadd dbg x y = iadd dbg y x.
  Proof.
    unfold iadd. rewrite (andb_comm (aassigned x)), (orb_comm (is_ninf (alower x) && is_pinf (aupper y))), (nl_add_comm N HN (alower x)), (nl_add_comm N HN (aupper x)). reflexivity.
  Qed.
  Lemma mul_comm_ivl dbg x y : aproper x -> aproper y -> forall Z, imul dbg x y = Ret Z -> exists Z', imul dbg y x = Ret Z' /\ agree Z Z'.
  Proof.
    intros Px Py Z HZ. destruct (mul_op_ok HN dbg x y Px Py) as [_ H]. destruct (H Z HZ) as (Hd & Hn & Hh).
    destruct (mul_op_ok HN dbg y x Py Px) as [H1 H2].
    destruct H1 as (Z' & HZ'). { intros u v Hu Hv. rewrite (nl_mul_comm N HN). apply Hd; auto. }
    destruct (H2 Z' HZ') as (_ & Hn' & Hh'). exists Z'. split; [exact HZ'|].
    assert (S : nan_pair n_mul x y <-> nan_pair n_mul y x) by (split; intros (u & v & s & Hu & Hv & Hs & Ns); exists v, u, s; rewrite (nl_mul_comm N HN); auto).
    assert (D : nan_pair n_mul x y \/ ~ nan_pair n_mul x y). { rewrite <- (mul_nan_iff HN x y Px Py). destruct (n_float N && _); auto. }
    destruct D as [D|D]; [left; split; [auto|apply Hn', S, D]|].
    apply (hull_agree HO (img2 n_mul x y)); [auto|]. eapply is_hull_ext; [|apply Hh'; tauto].
    intros w. split; intros (u & v & Hu & Hv & Hw); exists v, u; rewrite (nl_mul_comm N HN); auto.
  Qed.
  Lemma neg_neg_ivl dbg X Z : proper X -> ineg dbg X = Ret Z -> exists W, ineg dbg Z = Ret W /\ proper W /\ same W X.
  Proof.
    intros HX HZ. pose proof HZ as HZ0. unfold ineg in HZ. rewrite (pre1_ok HN dbg X HX) in HZ. cbn in HZ.
    destruct (n_neg (hi X)) as [l| | | |] eqn:El; try discriminate. destruct (n_neg (lo X)) as [u| | | |] eqn:Eu; try discriminate. cbn in HZ.
    apply mk_iff in HZ as [-> _]. pose proof (el_ok HO _ _ (el_lower HO X HX)) as Ol. pose proof (el_ok HO _ _ (el_upper HO X HX)) as Ou.
    destruct (nl_neg_invol N HN _ _ Ou El) as (h & Hh & Eh). destruct (nl_neg_invol N HN _ _ Ol Eu) as (g & Hg & Eg).
    assert (P : proper (Ivl l u)) by (exact (nl_neg_anti N HN _ _ _ _ HX Eu El)).
    unfold ineg. rewrite (pre1_ok HN dbg _ P). cbn. rewrite Hg, Hh. cbn.
    assert (P' : o_le g h = true) by (unfold proper in HX; clear - HO HX Eh Eg; ord HO).
    rewrite (mk_proper HO g h P'). eexists. split; [reflexivity|]. split; [exact P'|]. intros v. unfold el. cbn. clear - HO Eg Eh. split; intros [H1 H2]; split; ord HO.
  Qed.
  Lemma neg_top_bot : n_float N = true -> forall z, @n_neg N n_top = Ret z -> o_eq z n_bot = true.
  Proof.
    intros Hf z Hz. destruct (nl_float_total N HN Hf n_bot n_bot) as ((t & Ht) & _). pose proof (neg_bot_top HN Hf t Ht) as E.
    destruct (nl_neg_invol N HN _ _ (ok_bot HN) Ht) as (w & Hw & Ew).
    assert (L1 : o_le t n_top = true) by (clear - HO E; ord HO). assert (L2 : o_le n_top t = true) by (clear - HO E; ord HO).
    pose proof (nl_neg_anti N HN _ _ _ _ L1 Hw Hz). pose proof (nl_neg_anti N HN _ _ _ _ L2 Hz Hw). clear - HO H H0 Ew. ord HO.
  Qed.
  Lemma neg_inf u z : ok u -> n_neg u = Ret z -> is_pinf z = is_ninf u /\ is_ninf z = is_pinf u.
  Proof.
    intros Hu Hz. unfold is_pinf, is_ninf. destruct (n_float N) eqn:Hf; [cbn|auto].
    destruct (nl_float_total N HN Hf n_top n_top) as ((b & Hb) & _). destruct (nl_float_total N HN Hf n_bot n_bot) as ((t & Ht) & _).
    pose proof (neg_top_bot Hf b Hb) as Eb. pose proof (neg_bot_top HN Hf t Ht) as Et.
    assert (Cg : forall p q p' q' : N, o_eq p q = true -> n_neg p = Ret p' -> n_neg q = Ret q' -> o_eq p' q' = true).
    { intros p q p' q' E Hp Hq. assert (L1 : o_le p q = true) by (clear - HO E; ord HO). assert (L2 : o_le q p = true) by (clear - HO E; ord HO).
      pose proof (nl_neg_anti N HN _ _ _ _ L1 Hp Hq) as G1. pose proof (nl_neg_anti N HN _ _ _ _ L2 Hq Hp) as G2. clear - HO G1 G2. ord HO. }
    destruct (nl_neg_invol N HN u z Hu Hz) as (w & Hw & Ew).
    split; apply eq_true_iff_eq; split; intros E.
    - pose proof (Cg _ _ _ _ E Hw Hb) as K. clear - HO K Ew Eb. ord HO.
    - pose proof (Cg _ _ _ _ E Hz Ht) as K. clear - HO K Et. ord HO.
    - pose proof (Cg _ _ _ _ E Hw Ht) as K. clear - HO K Ew Et. ord HO.
    - pose proof (Cg _ _ _ _ E Hz Hb) as K. clear - HO K Eb. ord HO.
  Qed.
  Lemma sub_add_neg dbg x Y nY Z : aproper x -> proper Y -> ineg dbg Y = Ret nY -> isub dbg x (Iv Y) = Ret Z ->
    exists W, iadd dbg x (Iv nY) = Ret W /\ agree Z W.
  Proof.
    intros Px PY HnY HZ. destruct (neg_hull HN dbg Y PY) as (_ & K & _). destruct (K nY HnY) as (_ & Hh). pose proof (is_hull_proper HO _ _ Hh) as PnY. clear K Hh.
    destruct (add_op_ok HN dbg x (Iv nY) Px PnY) as [_ HA].
    destruct (sub_op_ok HN dbg x (Iv Y) Px PY) as [_ HS]. destruct (HS Z HZ) as (_ & Sn & Sh). clear HS.
    unfold ineg in HnY. rewrite (pre1_ok HN dbg Y PY) in HnY. cbn in HnY.
    destruct (n_neg (hi Y)) as [l| | | |] eqn:El; try discriminate. destruct (n_neg (lo Y)) as [u| | | |] eqn:Eu; try discriminate. cbn in HnY. apply mk_iff in HnY as [-> _].
    pose proof (el_ok HO _ _ (el_lower HO Y PY)) as Ol. pose proof (el_ok HO _ _ (el_upper HO Y PY)) as Ou.
    destruct (neg_inf _ _ Ou El) as [I1 I2], (neg_inf _ _ Ol Eu) as [I3 I4].
    assert (G := sub_nan_iff HN x (Iv Y) Px PY). assert (G' := add_nan_iff HN x (Iv (Ivl l u)) Px PnY).
    unfold isub in HZ. unfold iadd in *. rewrite (pre_ok HN dbg x (Iv Y) Px PY) in HZ. rewrite (pre_ok HN dbg x (Iv (Ivl l u)) Px PnY) in *. cbn [bind alower aupper lo hi] in *.
    rewrite I2, I3 in *. rewrite (andb_comm (is_pinf (hi Y))) in *.
    destruct (n_float N && _) eqn:E.
    - exists Z. split; [exact HZ|]. left. assert (nan_ivl Z) by (apply Sn, G; reflexivity). auto.
    - assert (Np : ~ nan_pair n_sub x (Iv Y)) by (intros H; apply G in H; discriminate).
      assert (Np' : ~ nan_pair n_add x (Iv (Ivl l u))) by (intros H; apply G' in H; first [discriminate|congruence]).
      destruct (n_sub (alower x) (hi Y)) as [p| | | |] eqn:Ep; try discriminate. destruct (n_sub (aupper x) (lo Y)) as [q| | | |] eqn:Eq; try discriminate. cbn in HZ. apply mk_iff in HZ as [-> Hpq].
      assert (Op : ok p) by (exact (not_nan_pair HN _ _ _ _ _ _ Np (ael_lower HO x Px) (el_upper HO Y PY) Ep)).
      assert (Oq : ok q) by (exact (not_nan_pair HN _ _ _ _ _ _ Np (ael_upper HO x Px) (el_lower HO Y PY) Eq)).
      destruct (nl_sub_neg N HN _ _ _ _ El Ep) as (p' & Hp' & Ep'). destruct (nl_sub_neg N HN _ _ _ _ Eu Eq) as (q' & Hq' & Eq').
      specialize (Ep' Op). specialize (Eq' Oq). rewrite Hp', Hq'. cbn.
      pose proof (assigned_proper HO (Ivl p q) Op Oq) as PZ. unfold assigned in PZ. cbn in PZ. rewrite Hpq in PZ. specialize (PZ eq_refl).
      assert (P' : o_le p' q' = true) by (unfold proper in PZ; cbn in PZ; clear - HO PZ Ep' Eq'; ord HO).
      rewrite (mk_proper HO p' q' P'). eexists. split; [reflexivity|]. right. split; [exact PZ|]. split; [exact P'|].
      intros v. unfold el. cbn. clear - HO Ep' Eq'. split; intros [H1 H2]; split; ord HO.
  Qed.
End Arith.
