(** Linear interpolation over a table. *)
From Coq Require Import Bool List Arith ZArith Lia.
From Verif Require Import Outcome SetModel Spec SetProofs Num NumLaws IntervalModel IvlSpec IvlProofs ArithProofs ArithProofs2 ArithProofs4 IntNum IntProofs IterModel IterProofs
  ValueTypes ConstrainModel CondSpec ConstrainProofs ConstrainProofs3 ConstrainProofs4 AlgoModel AlgoSpec AlgoProofs AlgoProofs2 AlgoProofs3 MathModel MathSpec LangModel ExampleProofs InterpModel InterpSpec InterpProofs SegProofs InterpProofs2
  InterpProofs3 InterpProofs4.
Import ListNotations.
Open Scope nat_scope.

Section Grow.
  Context {N : num} (HN : num_laws N).
  Let HO := nl_ord N HN.
  (** An accumulator: nothing assigned yet, or a proper interval with bounds that satisfy [Q]. *)
  Definition state (Q : N -> Prop) (R : ivl N) : Prop := R = ivl_default \/ (proper R /\ ends Q R).
  Definition grows (R R' : ivl N) : Prop := forall v, el R v -> el R' v.
  Lemma assign_grow Q R A : state Q R -> proper A -> ends Q A -> exists R', free_assign_partial R A = Ret R' /\ (proper R' /\ ends Q R') /\ grows R R' /\ grows A R'.
  Proof.
    unfold proper. intros HR HA [(s & Qs & Es) (t & Qt & Et)]. unfold free_assign_partial, iassign, assign_bounds. rewrite (proper_assigned HO A HA). cbn [expects bind]. eexists. split; [reflexivity|].
    assert (OA : ok (lo A) /\ ok (hi A)) by exact (ol_ok _ HO _ _ HA). destruct OA as [O1 O2].
    assert (OR : ok (lo R) /\ ok (hi R)).
    { destruct HR as [-> | [HR _]]; [|exact (ol_ok _ HO _ _ HR)]. destruct (nl_zero N HN) as [Z1 Z2]. cbn. unfold ok. clear - HO Z1 Z2. split; ord HO. }
    destruct OR as [O3 O4]. unfold grows, el. cbn [lo hi]. split; [split|split].
    - unfold ok in *. clear - HO HA O1 O2 O3 O4. unfold omin, omax. destruct (o_lt (lo A) (lo R)) eqn:?, (o_lt (hi R) (hi A)) eqn:?; ord HO.
    - assert (T1 : o_le (lo A) n_top = true) by now apply (nl_top N HN). assert (T2 : o_le n_bot (hi A) = true) by now apply (nl_bot N HN).
      unfold ok in *. unfold ends, omin, omax. cbn [lo hi]. split.
      + destruct (o_lt (lo A) (lo R)) eqn:L; [exists s; split; [exact Qs|]; clear - HO Es; ord HO|]. destruct HR as [-> | [_ [(s' & Qs' & Es') _]]].
        * exists s. split; [exact Qs|]. cbn [lo ivl_default] in *. clear - HO Es L T1 O1 O3. ord HO.
        * exists s'. split; [exact Qs'|]. clear - HO Es'. ord HO.
      + destruct (o_lt (hi R) (hi A)) eqn:L; [exists t; split; [exact Qt|]; clear - HO Et; ord HO|]. destruct HR as [-> | [_ [_ (t' & Qt' & Et')]]].
        * exists t. split; [exact Qt|]. cbn [hi ivl_default] in *. clear - HO Et L T2 O2 O4. ord HO.
        * exists t'. split; [exact Qt'|]. clear - HO Et'. ord HO.
    - intros v [V1 V2]. unfold ok in *. clear - HO V1 V2 O1 O2. unfold omin, omax. split; match goal with |- context [if ?b then _ else _] => destruct b eqn:? end; ord HO.
    - intros v [V1 V2]. unfold ok in *. clear - HO V1 V2 O3 O4. unfold omin, omax. split; match goal with |- context [if ?b then _ else _] => destruct b eqn:? end; ord HO.
  Qed.
End Grow.

Lemma enumerate_index (J : ivl (int_ordty 64)) fuel : (val (lo J) <= val (hi J))%Z -> (val (hi J) - val (lo J) + 1 < Z.of_nat fuel)%Z ->
  exists l, enumerate_interval fuel J = Some (Ret l) /\ forall v, In v l <-> (val (lo J) <= val v <= val (hi J))%Z.
Proof.
  intros H Hf. destruct (iv_loop (O := int_ordty 64) (@val 64)) with (u := hi J) (n := Z.to_nat (val (hi J) - val (lo J))) (p := lo J) as (l & Hl & _ & Ml).
  - apply val_inj.
  - intros a b. apply Z.ltb_lt.
  - intros a b. apply Z.eqb_eq.
  - intros a b L. pose proof (val_range 64 a). pose proof (val_range 64 b). destruct (proj2 (int_of_def 64 (val a + 1))) as (y & Ey); [lia|]. exists y. split; [exact Ey|]. now apply int_of_ret in Ey.
  - lia.
  - exists l. split; [|exact Ml]. unfold enumerate_interval. assert (A : assigned J = true) by (unfold assigned; cbn [o_lt int_ordty]; rewrite negb_true_iff; apply Z.ltb_ge; lia).
    rewrite A. apply Hl. lia.
Qed.

Lemma nth_some {A : Type} (l : list A) i : i < length l -> exists v, nth_error l i = Some v.
Proof. intros H. destruct (nth_error l i) eqn:E; [eauto|]. apply nth_error_None in E. lia. Qed.
Lemma elem_nth {A : Type} (l : list A) z i v : z = Z.of_nat i -> nth_error l i = Some v -> elem l z = Ret v.
Proof. intros -> E. unfold elem. rewrite (proj2 (Z.ltb_ge _ _)) by lia. now rewrite Nat2Z.id, E. Qed.

Section Table.
  Context {N : num} (HN : num_laws N) (SL : seg_laws N) (dbg : bool).
  Let HO := nl_ord N HN.
  Notation index := (int_ordty 64).
  Variables (xs ys : list N).
  Hypotheses (Hsort : sorted xs) (H2 : 2 <= length xs) (Hmax : (Z.of_nat (length xs) <= int_max 64)%Z) (HL : length ys = length xs)
    (Gx : finite_gaps xs) (Gy : finite_gaps ys) (Hdup : n_float N = true \/ ascending xs).
  Variable (X : ivl N).
  Hypothesis HX : proper X.

  Lemma gaps_ok (l : list N) : 2 <= length l -> finite_gaps l -> forall i v, nth_error l i = Some v -> ok v.
  Proof.
    intros L G i v E. assert (Hi : i < length l) by (apply nth_error_Some; congruence). destruct i as [|i].
    - destruct (nth_some l 1) as (w & Ew); [lia|]. destruct (G 0 v w E Ew) as (d & Ed & Fd). apply (nl_strict2 N HN w v d); [tauto|]. now apply (finite_ok HN).
    - destruct (nth_some l i) as (w & Ew); [lia|]. destruct (G i w v Ew E) as (d & Ed & Fd). apply (nl_strict2 N HN v w d); [tauto|]. now apply (finite_ok HN).
  Qed.

  Lemma seval_line (x0 x1 y0 y1 x y : N) : seval None dbg [x] (segment x0 x1 y0 y1) = Ret y <-> line x0 x1 y0 y1 x y.
  Proof.
    unfold segment, line. cbn [seval slookup nth_error bind sbin]. split.
    - intros E. destruct (n_sub x x0) as [a| | | |] eqn:Ea; try discriminate E. cbn [bind] in E. destruct (n_sub x1 x0) as [dx| | | |] eqn:Ex; try discriminate E. cbn [bind] in E.
      destruct (n_div a dx) as [t| | | |] eqn:Et; try discriminate E. cbn [bind] in E. destruct (n_sub y1 y0) as [dy| | | |] eqn:Ey; try discriminate E. cbn [bind] in E.
      destruct (n_mul t dy) as [p| | | |] eqn:Ep; try discriminate E. cbn [bind] in E. exists a, dx, t, dy, p. auto 10.
    - intros (a & dx & t & dy & p & -> & E1 & E2 & E3 & E4 & E5). cbn [bind]. rewrite E1. cbn [bind]. rewrite E2. cbn [bind]. rewrite E3. cbn [bind]. rewrite E4. cbn [bind]. exact E5.
  Qed.
  (** Values of the interpolating function at elements. *)
  Let value (y : N) : Prop := exists x, el X x /\ linear_value xs ys x y.

  (** What the segment that ends at position [i] contributes. *)
  Definition covers (i : nat) (R : ivl N) : Prop := forall x0 x1 y0 y1, nth_error xs (i - 1) = Some x0 -> nth_error xs i = Some x1 -> nth_error ys (i - 1) = Some y0 -> nth_error ys i = Some y1 ->
    forall x, el X x -> o_lt x0 x = true -> o_le x x1 = true -> exists y, seval None dbg [x] (segment x0 x1 y0 y1) = Ret y /\ el R y.
  Definition met (i : nat) : Prop := 0 < i < length xs /\ (forall a, nth_error xs (i - 1) = Some a -> o_lt a (hi X) = true) /\ (forall b, nth_error xs i = Some b -> o_le (lo X) b = true).

  Lemma step_ok R (j : index) i : val j = Z.of_nat i -> met i -> state value R -> exists R', linear_step dbg xs ys X R j = Ret R' /\ state value R' /\ grows R R' /\ covers i R'.
  Proof.
    intros Hj (Hi & Ha & Hb) HR. destruct (nth_some xs (i - 1)) as (x0 & E0); [lia|]. destruct (nth_some xs i) as (x1 & E1); [lia|].
    destruct (nth_some ys (i - 1)) as (y0 & F0); [lia|]. destruct (nth_some ys i) as (y1 & F1); [lia|]. specialize (Ha x0 E0). specialize (Hb x1 E1).
    unfold linear_step. rewrite (elem_nth xs (val j - 1) (i - 1) x0) by (try lia; assumption). rewrite (elem_nth xs (val j) i x1) by assumption.
    rewrite (elem_nth ys (val j - 1) (i - 1) y0) by (try lia; assumption). rewrite (elem_nth ys (val j) i y1) by assumption. cbn [bind].
    destruct (Gx (i - 1) x0 x1) as (dx & Edx & Fdx); [exact E0|replace (S (i - 1)) with i by lia; exact E1|].
    destruct (Gy (i - 1) y0 y1) as (dy & Edy & Fdy); [exact F0|replace (S (i - 1)) with i by lia; exact F1|].
    assert (L01 : o_le x0 x1 = true) by (apply (Hsort (i - 1) i); [lia|assumption|assumption]).
    assert (K0 : ok x0) by exact (proj1 (ol_ok _ HO _ _ L01)).
    assert (D : o_lt x0 x1 = true \/ (n_float N = true /\ o_eq x0 x1 = true)).
    { destruct (o_lt x0 x1) eqn:E; [now left|right]. destruct Hdup as [Hf|Hasc].
      - split; [exact Hf|]. clear - HO L01 E. ord HO.
      - rewrite (Hasc (i - 1) i x0 x1) in E; [discriminate|lia|assumption|assumption]. }
    destruct (part_at HN dbg X xs j x0 x1) as (XC & EXC & PXC & C1 & C2 & C3 & C4).
    - exact HX.
    - apply (elem_nth xs _ (i - 1)); [lia|exact E0].
    - now apply (elem_nth xs _ i).
    - lia.
    - exact K0.
    - exact Ha.
    - exact Hb.
    - destruct D as [D|[Hf D]]; [now left|right]. split; [|exact L01]. pose proof (nl_int_disc N HN) as Q. rewrite Hf in Q. destruct (o_disc N); [discriminate|reflexivity].
    - rewrite EXC. cbn [bind]. destruct D as [D|[Hf D]].
      + destruct (segment_ok HN SL dbg x0 x1 y0 y1 dx dy D Edx Fdx Edy Fdy XC PXC C1 C2) as (Z & EZ & PZ & IZ & KZ). rewrite EZ. cbn [bind as_ivl].
        assert (VZ : ends value Z).
        { assert (V : forall y, (exists x, el XC x /\ seval None dbg [x] (segment x0 x1 y0 y1) = Ret y) -> value y).
          { intros y (x & Hx & E). exists x. split; [exact (C4 x Hx)|]. right. right. exists (i - 1), x0, x1, y0, y1. replace (S (i - 1)) with i by lia. do 5 (split; [assumption|]).
            destruct Hx as [X1 X2]. split; [clear - HO C1 X1; ord HO|]. split; [clear - HO C2 X2; ord HO|]. now apply seval_line. }
          destruct KZ as [(s & Hs & Ls) (t & Ht & Lt)]. split; [exists s|exists t]; auto. }
        destruct (assign_grow HN value R Z HR PZ VZ) as (R' & ER & PR & G1 & G2). exists R'. split; [exact ER|]. split; [now right|]. split; [exact G1|].
        intros a0 a1 b0 b1 A0 A1 B0 B1 x Hx Lx0 Lx1. rewrite E0 in A0. rewrite E1 in A1. rewrite F0 in B0. rewrite F1 in B1. injection A0 as <-. injection A1 as <-. injection B0 as <-. injection B1 as <-.
        destruct (IZ x (C3 x Hx Lx0 Lx1)) as (y & Ey & Hy). exists y. split; [exact Ey|]. now apply G2.
      + destruct (segment_same HN SL dbg x0 x1 y0 y1 dx dy XC Hf D Edx Fdx Edy PXC C1 C2) as (Z & EZ & NZ). rewrite EZ. cbn [bind as_ivl].
        rewrite (nan_assign HN R Z NZ). exists R. split; [reflexivity|]. split; [exact HR|]. split; [intros v Hv; exact Hv|].
        intros a0 a1 b0 b1 A0 A1 B0 B1 x Hx Lx0 Lx1. rewrite E0 in A0. rewrite E1 in A1. injection A0 as <-. injection A1 as <-. exfalso. clear - HO D Lx0 Lx1. ord HO.
  Qed.
  Lemma covers_grows i R R' : grows R R' -> covers i R -> covers i R'.
  Proof. intros G C x0 x1 y0 y1 A0 A1 B0 B1 x Hx L0 L1. destruct (C x0 x1 y0 y1 A0 A1 B0 B1 x Hx L0 L1) as (y & Ey & Hy). exists y. split; [exact Ey|]. now apply G. Qed.
  Lemma loop_ok : forall (l : list index) R, state value R -> (forall j, In j l -> exists i, val j = Z.of_nat i /\ met i) ->
    exists R', linear_loop dbg xs ys X R l = Ret R' /\ state value R' /\ grows R R' /\ forall j i, In j l -> val j = Z.of_nat i -> covers i R'.
  Proof.
    induction l as [|j l IH]; intros R HR Hl; [exists R; split; [reflexivity|]; split; [exact HR|]; split; [intros v Hv; exact Hv|intros j i []]|].
    destruct (Hl j (or_introl eq_refl)) as (i & Hi & Mi). destruct (step_ok R j i Hi Mi HR) as (R1 & E1 & S1 & G1 & C1).
    destruct (IH R1 S1) as (R' & E' & S' & G' & C'); [intros j' Hj'; apply Hl; now right|]. exists R'. cbn [linear_loop]. rewrite E1. cbn [bind]. split; [exact E'|]. split; [exact S'|].
    split; [intros v Hv; now apply G', G1|]. intros j' i' [<-|Hj'] Hi'; [|exact (C' j' i' Hj' Hi')].
    assert (i' = i) by lia. subst i'. exact (covers_grows i R1 R' G' C1).
  Qed.

  Lemma positions : exists k l P, lower_bound_at xs (lo X) k /\ lower_bound_at xs (hi X) l /\ k <= l /\ lower_bound dbg xs (OpId 0 X) = Ret P /\ idx (lo P) = Z.of_nat k /\ idx (hi P) = Z.of_nat l.
  Proof.
    destruct (lower_exists HO xs (lo X) Hsort) as (k & Sk). destruct (lower_exists HO xs (hi X) Hsort) as (l & Sl). exists k, l.
    assert (M : forall a b m m', o_le a b = true -> lower_bound_at xs a m -> lower_bound_at xs b m' -> m <= m').
    { intros a b m m' L Sa Sb. refine (splits_mono _ _ xs m m' _ Sa Sb). intros e _. clear - HO L. ord HO. }
    destruct (lower_bound_hull HO dbg (TVar 0 X) xs HX Hsort) as (P & EP & K & (p & (v & m & [V1 V2] & Sm & Em) & Lp) & (q & (w & m' & [W1 W2] & Sm' & Em') & Lq)). exists P.
    split; [exact Sk|]. split; [exact Sl|]. split; [exact (M _ _ _ _ HX Sk Sl)|]. split; [exact EP|]. cbn in V1, V2, W1, W2.
    assert (B : forall u r, el X u -> lower_bound_at xs u r -> (idx (lo P) <= Z.of_nat r <= idx (hi P))%Z).
    { intros u r Hu Su. destruct (proj2 (iter_of_def (n := size xs) (Z.of_nat r))) as (i & Ei); [destruct Su as [Su _]; lia|]. apply iter_of_ret in Ei. rewrite <- Ei.
      apply el_idx. apply K. exists u, r. auto. }
    pose proof (B (lo X) k (el_lower HO X HX) Sk) as B1. pose proof (B (hi X) l (el_upper HO X HX) Sl) as B2. pose proof (M _ _ _ _ V1 Sk Sm) as M1. pose proof (M _ _ _ _ W2 Sm' Sl) as M2.
    cbn [o_eq iter_ordty] in Lp, Lq. apply Z.eqb_eq in Lp, Lq. lia.
  Qed.
  Lemma met_between i k l : lower_bound_at xs (lo X) k -> lower_bound_at xs (hi X) l -> 0 < i < length xs -> k <= i <= l -> met i.
  Proof.
    intros [_ Sk] [_ Sl] Hi Hkl. split; [exact Hi|]. split.
    - intros a Ea. apply (Sl (i - 1) a Ea). lia.
    - intros b Eb. destruct (Sk i b Eb) as [_ F]. specialize (F ltac:(lia)). pose proof (Hsort i i b b (le_n i) Eb Eb) as Ob. unfold proper in HX. apply not_true_is_false in F.
      pose proof HX as HX'. clear - HO F Ob HX'. ord HO.
  Qed.

  Lemma linear_runs : exists Z, linear dbg xs ys X = Ret Z /\ (forall x, el X x -> exists y, linear_scalar dbg xs ys x = Ret y /\ el Z y) /\ ends value Z.
  Proof.
    destruct positions as (k & l & P & Sk & Sl & Hkl & EP & Pk & Pl).
    assert (Hn : (0 <= Z.of_nat (length xs) <= int_max 64)%Z) by lia. pose proof int_min_neg as Hneg. destruct Sk as [Lk Sk'] eqn:ESk. destruct Sl as [Ll Sl'] eqn:ESl.
    unfold linear. rewrite (proj2 (Z.leb_le 2 (Z.of_nat (length xs)))) by lia. rewrite (proj2 (Nat.eqb_eq _ _) HL). rewrite debug_true by reflexivity. cbn [expects bind]. rewrite EP. cbn [bind].
    destruct (proj2 (iter_of_def (n := size xs) 0)) as (b & Eb); [lia|]. rewrite Eb. cbn [bind]. apply iter_of_ret in Eb.
    unfold it_diff. cbn [aassigned alower aupper].
    assert (AP : assigned P = true) by (unfold assigned; cbn [o_lt iter_ordty]; rewrite negb_true_iff; apply Z.ltb_ge; lia). rewrite AP. rewrite debug_true by reflexivity. cbn [bind].
    unfold iter_diff. rewrite Pk, Pl, Eb, !Z.sub_0_r.
    destruct (proj2 (int_of_def 64 (Z.of_nat k))) as (kl & Ekl); [lia|]. destruct (proj2 (int_of_def 64 (Z.of_nat l))) as (ku & Eku); [lia|]. rewrite Ekl, Eku. cbn [bind].
    apply int_of_ret in Ekl, Eku. rewrite mk_index by lia. cbn [bind].
    destruct (proj2 (int_of_def 64 0)) as (zero & Ez); [lia|]. rewrite Ez. cbn [bind]. apply int_of_ret in Ez.
    destruct (proj2 (int_of_def 64 (Z.of_nat (length xs)))) as (n & En); [lia|]. rewrite En. cbn [bind]. apply int_of_ret in En.
    destruct (index_inner dbg (@Ivl index kl ku) zero n) as (below & above & nbelow & nabove & Q1 & Q2 & Q3 & Q4 & Q5 & Q6 & Q7 & Q8).
    { apply Z.leb_le. cbn [lo hi]. lia. }
    { exact Ez. }
    { lia. }
    { cbn [lo hi]. lia. }
    { cbn [lo hi]. lia. }
    cbn [lo hi] in Q5, Q6, Q7, Q8. rewrite Ekl, Eku, En in *. change (@Sc (int 64) zero) with (@Sc index zero). change (@Sc (int 64) n) with (@Sc index n). rewrite Q1. cbn [bind]. rewrite Q5.
    destruct (nth_some ys 0) as (yf & Ef); [lia|]. destruct (nth_some ys (length xs - 1)) as (yl & El); [lia|].
    rewrite (elem_nth ys 0 0 yf) by (reflexivity || exact Ef). rewrite (elem_nth ys (Z.of_nat (length xs) - 1) (length xs - 1) yl) by (lia || exact El). cbn [bind].
    assert (A1 : exists R1, (if (Z.of_nat k =? 0)%Z then free_assign_partial (@ivl_default N) (ivl_of yf) else Ret ivl_default) = Ret R1 /\ state value R1 /\ (k = 0 -> el R1 yf)).
    { assert (Oy : ok yf) by (apply (gaps_ok ys) with (i := 0); [lia|exact Gy|exact Ef]).
      destruct (Z.eqb_spec (Z.of_nat k) 0) as [E|E].
      - assert (V : ends value (ivl_of yf)).
        { assert (V : value yf).
          { exists (lo X). split; [exact (el_lower HO X HX)|]. left. destruct (nth_some xs 0) as (p & Ep); [lia|]. exists p. split; [exact Ep|]. split; [|exact Ef].
            destruct (Sk' 0 p Ep) as [_ F]. specialize (F ltac:(lia)). apply not_true_is_false in F. pose proof (Hsort 0 0 p p (le_n 0) Ep Ep) as Op. pose proof HX as HX'. unfold proper in HX'. clear - HO F Op HX'. ord HO. }
          unfold ok in Oy. split; exists yf; (split; [exact V|]; cbn; clear - HO Oy; ord HO). }
        destruct (assign_grow HN value ivl_default (ivl_of yf) (or_introl eq_refl) Oy V) as (R1 & ER & PR & _ & G). exists R1. split; [exact ER|]. split; [now right|]. intros _. apply G. split; exact Oy.
      - eexists. split; [reflexivity|]. split; [now left|]. lia. }
    destruct A1 as (R1 & ER1 & SR1 & C1). rewrite ER1. cbn [bind]. rewrite Q2. cbn [bind]. rewrite Q6.
    assert (A2 : exists R2, (if (Z.of_nat l =? Z.of_nat (length xs))%Z then free_assign_partial R1 (ivl_of yl) else Ret R1) = Ret R2 /\ state value R2 /\ grows R1 R2 /\ (l = length xs -> el R2 yl)).
    { assert (Oy : ok yl) by (apply (gaps_ok ys) with (i := length xs - 1); [lia|exact Gy|exact El]).
      destruct (Z.eqb_spec (Z.of_nat l) (Z.of_nat (length xs))) as [E|E].
      - assert (V : ends value (ivl_of yl)).
        { assert (V : value yl).
          { exists (hi X). split; [exact (el_upper HO X HX)|]. right. left. destruct (nth_some xs (length xs - 1)) as (p & Ep); [lia|]. exists p. split; [exact Ep|]. split; [|exact El].
            apply (Sl' (length xs - 1) p Ep). lia. }
          unfold ok in Oy. split; exists yl; (split; [exact V|]; cbn; clear - HO Oy; ord HO). }
        destruct (assign_grow HN value R1 (ivl_of yl) SR1 Oy V) as (R2 & ER & PR & G1 & G). exists R2. split; [exact ER|]. split; [now right|]. split; [exact G1|]. intros _. apply G. split; exact Oy.
      - eexists. split; [reflexivity|]. split; [exact SR1|]. split; [intros v Hv; exact Hv|]. lia. }
    destruct A2 as (R2 & ER2 & SR2 & G2 & C2). rewrite ER2. cbn [bind]. rewrite Q3. cbn [bind]. rewrite Q4. cbn [bind].
    (* the number at hand and its position *)
    assert (S : forall x, el X x -> exists m, k <= m <= l /\ lower_bound_at xs x m).
    { intros x [X1 X2]. destruct (lower_exists HO xs x Hsort) as (m & Sm). exists m. split; [|exact Sm].
      split; [refine (splits_mono _ _ xs k m _ Sk Sm)|refine (splits_mono _ _ xs m l _ Sm Sl)]; intros e _; [clear - HO X1|clear - HO X2]; ord HO. }
    assert (T : forall R, grows R2 R -> (forall i, 0 < i < length xs -> k <= i <= l -> covers i R) -> forall x, el X x -> exists y, linear_scalar dbg xs ys x = Ret y /\ el R y).
    { intros R GR CR x Hx. destruct (S x Hx) as (m & Hm & Sm). unfold linear_scalar. rewrite (proj2 (Z.leb_le 2 (Z.of_nat (length xs)))) by lia. rewrite (proj2 (Nat.eqb_eq _ _) HL).
      rewrite debug_true by reflexivity. cbn [expects bind]. destruct (lower_scalar xs x m Sm) as (pos & Epos & Hpos). rewrite Epos. cbn [bind]. rewrite Hpos.
      destruct (Z.eqb_spec (Z.of_nat m) 0) as [M0|M0].
      - exists yf. split; [now apply (elem_nth ys 0 0)|]. apply GR, G2, C1. lia.
      - destruct (Z.eqb_spec (Z.of_nat m) (Z.of_nat (length xs))) as [M1|M1].
        + exists yl. split; [apply (elem_nth ys _ (length xs - 1)); [lia|exact El]|]. apply GR, C2. lia.
        + destruct Sm as [Lm Sm]. destruct (nth_some xs (m - 1)) as (x0 & E0); [lia|]. destruct (nth_some xs m) as (x1 & E1); [lia|].
          destruct (nth_some ys (m - 1)) as (y0 & F0); [lia|]. destruct (nth_some ys m) as (y1 & F1); [lia|].
          rewrite (elem_nth xs (Z.of_nat m - 1) (m - 1) x0) by (lia || exact E0). rewrite (elem_nth xs (Z.of_nat m) m x1) by (reflexivity || exact E1).
          rewrite (elem_nth ys (Z.of_nat m - 1) (m - 1) y0) by (lia || exact F0). rewrite (elem_nth ys (Z.of_nat m) m y1) by (reflexivity || exact F1). cbn [bind].
          apply (CR m ltac:(lia) Hm x0 x1 y0 y1 E0 E1 F0 F1 x Hx).
          * apply (Sm (m - 1) x0 E0). lia.
          * destruct (Sm m x1 E1) as [_ F]. specialize (F ltac:(lia)). apply not_true_is_false in F. pose proof (Hsort m m x1 x1 (le_n m) E1 E1) as O1. destruct Hx as [X1 X2]. clear - HO F O1 X1. ord HO. }
    assert (F : forall R, state value R -> grows R2 R -> (forall i, 0 < i < length xs -> k <= i <= l -> covers i R) ->
      (forall x, el X x -> exists y, linear_scalar dbg xs ys x = Ret y /\ el R y) /\ ends value R).
    { intros R SR GR CR. pose proof (T R GR CR) as TR. split; [exact TR|]. destruct SR as [-> | [_ K]]; [exfalso|exact K].
      destruct (TR (lo X) (el_lower HO X HX)) as (y & _ & [Y1 Y2]). cbn in Y1, Y2. destruct (nl_zero N HN) as [Z1 Z2]. clear - HO Y1 Y2 Z1 Z2. ord HO. }
    clear ESk ESl T. rewrite Q7 in Q8 |- *. destruct (Z.leb_spec (Z.max 1 (Z.of_nat k)) (Z.min (Z.of_nat (length xs) - 1) (Z.of_nat l))) as [C|C].
    - destruct (Q8 eq_refl) as (J & EJ & J1 & J2). rewrite EJ. cbn [bind].
      destruct (enumerate_index J (Datatypes.S (length xs))) as (lst & El' & Ml); [lia|lia|]. rewrite El'. cbn [bind].
      destruct (loop_ok lst R2 SR2) as (R & ER & SR & GR & CR).
      + intros j Hj. apply Ml in Hj. exists (Z.to_nat (val j)). split; [lia|]. apply (met_between _ k l Sk Sl); lia.
      + exists R. split; [exact ER|]. apply F; [exact SR|exact GR|]. intros i Hi Hil. destruct (proj2 (int_of_def 64 (Z.of_nat i))) as (j & Ej); [lia|]. apply int_of_ret in Ej.
        apply (CR j i); [|exact Ej]. apply Ml. lia.
    - exists R2. split; [reflexivity|]. apply F; [exact SR2|intros v Hv; exact Hv|]. intros i Hi Hil. lia.
  Qed.
  Lemma linear_included : exists Z, linear dbg xs ys X = Ret Z /\ forall x, el X x -> exists y, linear_scalar dbg xs ys x = Ret y /\ el Z y.
  Proof. destruct linear_runs as (Z & E & K & _). eauto. Qed.
  Lemma linear_tight Z : linear dbg xs ys X = Ret Z ->
    (exists x y, el X x /\ linear_value xs ys x y /\ o_eq y (lo Z) = true) /\ (exists x y, el X x /\ linear_value xs ys x y /\ o_eq y (hi Z) = true).
  Proof.
    intros E. destruct linear_runs as (Z' & E' & _ & [(s & (x & Hx & Vs) & Es) (t & (x' & Hx' & Vt) & Et)]). rewrite E in E'. injection E' as <-. split; [exists x, s|exists x', t]; auto.
  Qed.
End Table.

Section Scalar.
  Context {N : num} (HN : num_laws N) (SL : seg_laws N) (dbg : bool).
  Let HO := nl_ord N HN.
  Lemma linear_scalar_ok (xs ys : list N) : sorted xs -> 2 <= length xs -> (Z.of_nat (length xs) <= int_max 64)%Z -> length ys = length xs ->
    finite_gaps xs -> finite_gaps ys -> n_float N = true \/ ascending xs -> forall x, ok x -> exists y, linear_scalar dbg xs ys x = Ret y /\ linear_value xs ys x y.
  Proof.
    intros Hsort H2 Hmax HL Gx Gy Hdup x Ox.
    destruct (linear_included HN SL dbg xs ys Hsort H2 Hmax HL Gx Gy Hdup (ivl_of x) Ox) as (Z & _ & K). destruct (K x) as (y & Ey & _); [split; exact Ox|]. exists y. split; [exact Ey|]. clear K Z.
    unfold linear_scalar in Ey. rewrite (proj2 (Z.leb_le 2 (Z.of_nat (length xs)))) in Ey by lia. rewrite (proj2 (Nat.eqb_eq _ _) HL) in Ey. rewrite debug_true in Ey by reflexivity. cbn [expects bind] in Ey.
    destruct (lower_exists HO xs x Hsort) as (m & Sm). destruct (lower_scalar xs x m Sm) as (pos & Epos & Hpos). rewrite Epos in Ey. cbn [bind] in Ey. rewrite Hpos in Ey. destruct Sm as [Lm Sm].
    assert (U : forall b, m < length xs -> nth_error xs m = Some b -> o_le x b = true).
    { intros b Hm Eb. destruct (Sm m b Eb) as [_ F]. specialize (F (le_n m)). apply not_true_is_false in F. pose proof (Hsort m m b b (le_n m) Eb Eb) as Ob. unfold ok in Ox. clear - HO F Ob Ox. ord HO. }
    destruct (Z.eqb_spec (Z.of_nat m) 0) as [M0|M0].
    - left. destruct (nth_some ys 0) as (yf & Ef); [lia|]. rewrite (elem_nth ys 0 0 yf) in Ey by (reflexivity || exact Ef). injection Ey as <-.
      assert (m = 0) by lia. subst m. destruct (nth_some xs 0) as (p & Ep); [lia|]. exists p. split; [exact Ep|]. split; [apply U; [lia|exact Ep]|exact Ef].
    - right. destruct (Z.eqb_spec (Z.of_nat m) (Z.of_nat (length xs))) as [M1|M1].
      + left. destruct (nth_some ys (length xs - 1)) as (yl & El); [lia|]. rewrite (elem_nth ys (Z.of_nat (length xs) - 1) (length xs - 1) yl) in Ey by (lia || exact El). injection Ey as <-.
        destruct (nth_some xs (length xs - 1)) as (p & Ep); [lia|]. exists p. split; [exact Ep|]. split; [|exact El]. apply (Sm (length xs - 1) p Ep). lia.
      + right. destruct (nth_some xs (m - 1)) as (x0 & E0); [lia|]. destruct (nth_some xs m) as (x1 & E1); [lia|].
        destruct (nth_some ys (m - 1)) as (y0 & F0); [lia|]. destruct (nth_some ys m) as (y1 & F1); [lia|].
        rewrite (elem_nth xs (Z.of_nat m - 1) (m - 1) x0) in Ey by (lia || exact E0). rewrite (elem_nth xs (Z.of_nat m) m x1) in Ey by (reflexivity || exact E1).
        rewrite (elem_nth ys (Z.of_nat m - 1) (m - 1) y0) in Ey by (lia || exact F0). rewrite (elem_nth ys (Z.of_nat m) m y1) in Ey by (reflexivity || exact F1). cbn [bind] in Ey.
        destruct (Sm (m - 1) x0 E0) as [L0 _]. specialize (L0 ltac:(lia)). pose proof (U x1 ltac:(lia) E1) as L1.
        exists (m - 1), x0, x1, y0, y1. replace (S (m - 1)) with m by lia. do 4 (split; [assumption|]). split; [clear - HO L0 L1; ord HO|]. split; [clear - HO L0; ord HO|]. split; [exact L1|].
        now apply (seval_line dbg).
  Qed.
End Scalar.
