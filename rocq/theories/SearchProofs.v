(** Proofs about searches with a comparison. *)
From Coq Require Import Bool List Arith ZArith Lia.
From Verif Require Import Outcome SetModel Spec SetProofs Num NumLaws IntervalModel IvlSpec IvlProofs IntNum IntProofs IterModel IterProofs ConstrainModel CondSpec
  ConstrainProofs ConstrainProofs2 ConstrainProofs4 ConstrainProofs5 ConstrainProofs6 ConstrainWrap AlgoModel AlgoSpec AlgoProofs AlgoProofs2 AlgoProofs4 SearchModel SearchSpec.
Import ListNotations.
Open Scope nat_scope.

Section Search.
  Context {O : ordty} (HO : ord_laws O) (dbg : bool).
  Notation index := (int_ordty 64).
  Implicit Types (c : comparator) (r : list O) (v e w : O) (V X Z : ivl O) (I : arg index) (t : term O).

  (** Both searches at once: [s] selects [lower_bound]. *)
  Definition test (s : bool) c e v : bool := if s then rel_holds (rel_of c) e v else negb (rel_holds (rel_of c) v e).
  Definition cform_at (s : bool) c t e : cform O := if s then GRel (rel_of c) (TVal (Sc e)) t else GNot (GRel (rel_of c) t (TVal (Sc e))).
  Definition pred_by (s : bool) c t e : outcome (cond O) := if s then lower_pred_by dbg c (operand_of t) e else upper_pred_by dbg c (operand_of t) e.
  Definition found (s : bool) c r v k : Prop := if s then lower_at c r v k else upper_at c r v k.
  Lemma pred_build s c t e : pred_by s c t e = build dbg (cform_at s c t e).
  Proof. destruct s, c; reflexivity. Qed.
  Lemma found_splits s c r v k : found s c r v k <-> splits (fun e => test s c e v = true) r k.
  Proof.
    destruct s; [reflexivity|]. unfold found, upper_at, test. split; apply splits_ext; intros e _; now rewrite negb_true_iff.
  Qed.
  Lemma arranged_ok c r : arranged c r -> forall e, In e r -> ok e.
  Proof. intros S e H. apply In_nth_error in H as (i & E). specialize (S i i e e (le_n i) E E). destruct c; exact S. Qed.

  Definition less_like c : bool := match c with Less | LessEq => true | _ => false end.
  Definition before c v w : Prop := (if less_like c then o_le v w else o_le w v) = true.
  Lemma test_mono_elem s c d e v : ok d -> ok e -> ok v -> before c d e -> test s c e v = true -> test s c d v = true.
  Proof. unfold before, test. destruct s, c; cbn; intros; ord HO. Qed.
  Lemma test_mono_val s c e v w : ok e -> ok v -> ok w -> before c v w -> test s c e v = true -> test s c e w = true.
  Proof. unfold before, test. destruct s, c; cbn; intros; ord HO. Qed.

  Lemma found_exists s c r v : arranged c r -> ok v -> exists k, found s c r v k.
  Proof.
    intros S Hv. pose proof (arranged_ok c r S) as Hok. enough (exists k, splits (fun e => test s c e v = true) r k) as (k & H) by (exists k; now apply found_splits).
    apply partitioned_iff. revert S Hok. induction r as [|a r IH]; intros S Hok; [reflexivity|]. cbn.
    assert (S' : arranged c r). { intros i j d e L Ei Ej. apply (S (Datatypes.S i) (Datatypes.S j)); auto. lia. }
    destruct (test s c a v) eqn:Fa; [apply IH; [exact S'|]; intros; apply Hok; now right|].
    apply forallb_forall. intros b Hb. apply in_map_iff in Hb as (e & <- & He). destruct (test s c e v) eqn:Fe; [|reflexivity]. exfalso.
    assert (test s c a v = true); [|congruence]. apply In_nth_error in He as (i & Ei). apply (test_mono_elem s c a e v); [apply Hok; now left|apply Hok; right; eapply nth_error_In, Ei|exact Hv| |exact Fe].
    unfold before. specialize (S 0 (Datatypes.S i) a e ltac:(lia) eq_refl Ei). destruct c; exact S.
  Qed.
  Lemma legal_rel R t u : aproper (op_arg (operand_of t)) -> aproper (op_arg (operand_of u)) -> legal (GRel R t u).
  Proof. intros Hs Ht. split; [|exact Logic.I]. split; [destruct t|destruct u]; assumption. Qed.
  Lemma cform_legal s c t e : aproper (op_arg (operand_of t)) -> ok e -> legal (cform_at s c t e).
  Proof. intros Ht He. destruct s; [exact (legal_rel (rel_of c) (TVal (Sc e)) t He Ht)|exact (legal_rel (rel_of c) t (TVal (Sc e)) Ht He)]. Qed.
  Lemma rel_cong R e e' v : o_le e e' = true -> o_le e' e = true -> ok v -> rel_holds R e v = rel_holds R e' v /\ rel_holds R v e = rel_holds R v e'.
  Proof.
    intros A B Hv. split; destruct R; cbn; match goal with |- ?x = ?y => destruct x eqn:?, y eqn:?; try reflexivity; exfalso end;
      repeat match goal with H : negb _ = true |- _ => apply negb_true_iff in H | H : negb _ = false |- _ => apply negb_false_iff in H end; ord HO.
  Qed.
  Lemma tel_ok t v : aproper (op_arg (operand_of t)) -> tel t v -> ok v.
  Proof. intros Ht Hv. apply term_el in Hv. exact (ael_ok HO _ _ Hv). Qed.
  Lemma pred_val s c t e : aproper (op_arg (operand_of t)) -> ok e -> exists x, pred_by s c t e = Ret x
    /\ forall b : bool, member (cset x) b <-> exists v, tel t v /\ test s c e v = b.
  Proof.
    intros Ht He. destruct (build_ok HO dbg (cform_at s c t e)) as (x & Hx & _ & Hm); [now apply cform_legal|].
    exists x. split; [now rewrite pred_build|]. intros b. rewrite Hm. unfold cform_at, test. destruct s.
    - rewrite possible_rel. split.
      + intros (d & v & [L1 L2] & Hv & E). cbn in L1, L2. exists v. split; [exact Hv|]. rewrite <- E. apply rel_cong; [exact L1|exact L2|exact (tel_ok t v Ht Hv)].
      + intros (v & Hv & E). exists e, v. split; [split; exact He|auto].
    - rewrite possible_not, possible_rel. split.
      + intros (v & d & Hv & [L1 L2] & E). cbn in L1, L2. exists v. split; [exact Hv|]. rewrite <- (negb_involutive b), <- E. f_equal. apply rel_cong; [exact L1|exact L2|exact (tel_ok t v Ht Hv)].
      + intros (v & Hv & E). exists v, e. split; [exact Hv|]. split; [split; exact He|]. now rewrite <- E, negb_involutive.
  Qed.
  Lemma search_hull s c t r : aproper (op_arg (operand_of t)) -> arranged c r ->
    exists P, partition_point_set (pred_by s c t) r = Ret P /\ is_hull (fun i : iter_ordty (size r) => exists v m, tel t v /\ found s c r v m /\ idx i = Z.of_nat m) P.
  Proof.
    intros Ht S. pose proof (arranged_ok c r S) as Hok. set (a := op_arg (operand_of t)) in *.
    pose proof (ael_lower HO a Ht) as La. pose proof (ael_upper HO a Ht) as Ua.
    assert (B : exists p q, tel t p /\ tel t q /\ forall v, tel t v -> before c p v /\ before c v q).
    { unfold before. destruct (less_like c); [exists (alower a), (aupper a)|exists (aupper a), (alower a)]; (split; [now apply term_el|]; split; [now apply term_el|]; intros v Hv; apply term_el in Hv; destruct Hv; split; assumption). }
    destruct B as (p & q & Hp & Hq & Hb). pose proof (tel_ok t p Ht Hp) as Op. pose proof (tel_ok t q Ht Hq) as Oq.
    destruct (found_exists s c r p S Op) as (k & Fk). destruct (found_exists s c r q S Oq) as (l & Fl).
    pose proof (proj1 (found_splits _ _ _ _ _) Fk) as Sk. pose proof (proj1 (found_splits _ _ _ _ _) Fl) as Sl.
    destruct (partition_point_set_eq (pred_by s c t) (fun e => set_val (pred_by s c t e)) r k l) as (i & j & Hi & Hj & E).
    - intros e He. destruct (pred_val s c t e Ht (Hok e He)) as (x & -> & _). eauto.
    - revert Sk. apply splits_ext. intros e He. pose proof (Hok e He) as Oe. destruct (pred_val s c t e Ht Oe) as (x & -> & Hm). cbn. rewrite Hm. split.
      + intros L (v & Hv & F). rewrite (test_mono_val s c e p v Oe Op (tel_ok t v Ht Hv) (proj1 (Hb v Hv)) L) in F. discriminate.
      + intros N. destruct (test s c e p) eqn:F; [reflexivity|]. exfalso. apply N. exists p. auto.
    - revert Sl. apply splits_ext. intros e He. pose proof (Hok e He) as Oe. destruct (pred_val s c t e Ht Oe) as (x & -> & Hm). cbn. rewrite Hm. split.
      + intros L. exists q. auto.
      + intros (v & Hv & F). exact (test_mono_val s c e v q Oe (tel_ok t v Ht Hv) Oq (proj2 (Hb v Hv)) F).
    - assert (Hmono : forall v w m m', ok v -> ok w -> before c v w -> found s c r v m -> found s c r w m' -> m <= m').
      { intros v w m m' Ov Ow L A B. apply found_splits in A, B. refine (splits_mono _ _ r m m' _ A B). intros e He. now apply test_mono_val; auto. }
      rewrite E, mk_iter by (pose proof (Hmono _ _ _ _ Op Oq (proj1 (Hb q Hq)) Fk Fl); lia). eexists. split; [reflexivity|]. split; [|split].
      + intros g (v & m & Hv & Sm & Hg). destruct (Hb v Hv) as [L U]. pose proof (tel_ok t v Ht Hv). apply el_idx. cbn. rewrite Hi, Hj, Hg. split; apply Nat2Z.inj_le; eauto.
      + exists i. split; [|apply Z.eqb_refl]. exists p, k. auto.
      + exists j. split; [|apply Z.eqb_refl]. exists q, l. auto.
  Qed.

  Lemma part_sound_by s c x V X r I v k : index_ok r I -> arranged c r -> el V v -> el X v -> found s c r v k -> index_in I k ->
    exists Z, part_constrain dbg x X (pred_by s c (TVar x V)) r I = Ret Z /\ el Z v.
  Proof.
    intros HI S HV HX Hk Hin. pose proof (arranged_ok c r S) as Hok. pose proof (el_proper HO V v HV) as PV.
    apply found_splits in Hk. pose proof (proj1 (positions _ r I k HI Hk) Hin) as [A B].
    assert (T : forall e, ok e -> truth (fun _ => v) (cform_at s c (TVar x V) e) (test s c e v)).
    { intros e He. unfold cform_at, test. destruct s; [apply tr_rel; [exact (sc_ael e He)|reflexivity]|apply tr_not, tr_rel; [reflexivity|exact (sc_ael e He)]]. }
    apply (part_sound HO dbg (cform_at s c (TVar x V))); [intros; apply pred_build|exact HI|exact HX| |].
    - intros L e E. pose proof (Hok e (nth_error_In _ _ E)) as He. apply (sound_at HO dbg x);
        [now apply cform_legal|now destruct s|now destruct s, c|destruct s; cbn; now rewrite Nat.eqb_refl|destruct s; (split; [exact Logic.I || exact HV|exact Logic.I || exact HV])|exact HX|].
      rewrite <- (A L e E). now apply T.
    - intros L e E. pose proof (Hok e (nth_error_In _ _ E)) as He. apply (sound_at HO dbg x);
        [exact (cform_legal s c (TVar x V) e PV He)|now destruct s|now destruct s, c|destruct s; cbn; now rewrite Nat.eqb_refl|destruct s; (split; [exact Logic.I || exact HV|exact Logic.I || exact HV])|exact HX|].
      replace true with (negb (test s c e v)); [apply tr_not; now apply T|]. apply negb_true_iff, not_true_is_false, (B L e E).
  Qed.

  (** What remains between the neighbouring elements. *)
  Definition rem_low (s : bool) c e w : Prop := rel_holds (relaxed O (if s then rel_of c else rel_neg (rel_of c))) (if s then e else w) (if s then w else e) = true.
  Definition rem_high (s : bool) c e w : Prop := rel_holds (relaxed O (if s then rel_neg (rel_of c) else rel_of c)) (if s then e else w) (if s then w else e) = true.
  Lemma rel_tight_left x R e V Z : R <> RNe -> proper V -> ok e -> constrain_by dbg x V (GRel R (TVal (Sc e)) (TVar x V)) = Ret Z ->
    proper Z /\ forall w, el Z w <-> el V w /\ rel_holds (relaxed O R) e w = true.
  Proof.
    intros NR PV He H. destruct (rel_tight HO dbg x R (TVal (Sc e)) (TVar x V) V Z) as [P1 P2];
      [exact (legal_rel R (TVal (Sc e)) (TVar x V) He PV)|exact PV|split; [exact Logic.I|reflexivity]|exact NR|cbn; now rewrite Nat.eqb_refl|exact H|].
    split; [exact P1|]. intros w. rewrite P2. unfold solution, relaxed. cbn [tmentions tel]. rewrite Nat.eqb_refl.
    destruct (o_disc O); rewrite (lt_sc HO _ e w He); intuition discriminate.
  Qed.
  Lemma rel_tight_right x R e V Z : R <> RNe -> proper V -> ok e -> constrain_by dbg x V (GRel R (TVar x V) (TVal (Sc e))) = Ret Z ->
    proper Z /\ forall w, el Z w <-> el V w /\ rel_holds (relaxed O R) w e = true.
  Proof.
    intros NR PV He H. destruct (rel_tight HO dbg x R (TVar x V) (TVal (Sc e)) V Z) as [P1 P2];
      [exact (legal_rel R (TVar x V) (TVal (Sc e)) PV He)|exact PV|split; [reflexivity|exact Logic.I]|exact NR|cbn; now rewrite Nat.eqb_refl|exact H|].
    split; [exact P1|]. intros w. rewrite P2. unfold solution, relaxed. cbn [tmentions tel]. rewrite Nat.eqb_refl.
    destruct (o_disc O); rewrite (sc_gt HO _ e w He); intuition discriminate.
  Qed.
  Lemma part_tight_by s c x V r I Z : index_ok r I -> arranged c r -> proper V ->
    part_constrain dbg x V (pred_by s c (TVar x V)) r I = Ret Z ->
    forall w, el Z w <-> el V w
      /\ ((0 < val (alower I))%Z -> forall e, nth_error r (Z.to_nat (val (alower I) - 1)) = Some e -> rem_low s c e w)
      /\ ((val (aupper I) < size r)%Z -> forall e, nth_error r (Z.to_nat (val (aupper I))) = Some e -> rem_high s c e w).
  Proof.
    intros HI S PV. pose proof (arranged_ok c r S) as Hok.
    assert (NR : rel_of c <> RNe /\ rel_neg (rel_of c) <> RNe) by (destruct c; split; discriminate). destruct NR as [NR NR'].
    assert (CC : forall R t u, comparisons (GRel R t u) = true) by reflexivity.
    apply (part_tight HO dbg (cform_at s c (TVar x V))); [intros; apply pred_build|exact HI|exact PV| |]; intros e Z' H He; apply Hok in He; unfold rem_low, rem_high; destruct s; unfold cform_at in H.
    - exact (rel_tight_left x _ e V Z' NR PV He H).
    - pose proof (cform_legal false c (TVar x V) e PV He) as LF. unfold cform_at in LF. rewrite (by_neg HO dbg) in H; [|exact LF|reflexivity]. exact (rel_tight_right x _ e V Z' NR' PV He H).
    - pose proof (cform_legal true c (TVar x V) e PV He) as LF. unfold cform_at in LF. rewrite (by_neg HO dbg) in H; [|exact LF|reflexivity]. exact (rel_tight_left x _ e V Z' NR' PV He H).
    - pose proof (cform_legal false c (TVar x V) e PV He) as LF. unfold cform_at in LF. rewrite (by_dneg HO dbg) in H; [|exact LF|reflexivity]. exact (rel_tight_right x _ e V Z' NR PV He H).
  Qed.
  Lemma rel_negated R v w : ok v -> ok w -> rel_holds (rel_neg R) v w = negb (rel_holds R v w).
  Proof.
    intros A B. destruct R; cbn; try reflexivity; try now rewrite negb_involutive.
    all: match goal with |- ?x = negb ?y => destruct x eqn:?, y eqn:?; try reflexivity; exfalso end; ord HO.
  Qed.
  Lemma part_exact_by s c x V r I Z : o_disc O = true -> index_ok r I -> arranged c r -> proper V ->
    part_constrain dbg x V (pred_by s c (TVar x V)) r I = Ret Z ->
    forall w, el Z w <-> el V w /\ exists k, found s c r w k /\ index_in I k.
  Proof.
    intros D HI S PV H w. rewrite (part_tight_by s c x V r I Z HI S PV H w). unfold rem_low, rem_high, relaxed. rewrite D. pose proof (arranged_ok c r S) as Hok.
    assert (T : forall e, ok e -> ok w -> (rel_holds (if s then rel_of c else rel_neg (rel_of c)) (if s then e else w) (if s then w else e) = true <-> test s c e w = true)
      /\ (rel_holds (if s then rel_neg (rel_of c) else rel_of c) (if s then e else w) (if s then w else e) = true <-> ~ test s c e w = true)).
    { intros e Oe Ow. unfold test. destruct s; cbv beta iota; rewrite rel_negated by assumption; destruct (rel_holds (rel_of c) _ _); cbn; intuition congruence. }
    split.
    - intros (Hw & A & B). split; [exact Hw|]. pose proof (el_ok HO V w Hw) as Ow. destruct (found_exists s c r w S Ow) as (k & Sk). exists k. split; [exact Sk|].
      apply found_splits in Sk. apply (proj2 (positions _ r I k HI Sk)). split.
      + intros L e E. apply (T e (Hok e (nth_error_In _ _ E)) Ow). exact (A L e E).
      + intros L e E. apply (T e (Hok e (nth_error_In _ _ E)) Ow). exact (B L e E).
    - intros (Hw & k & Sk & Hin). split; [exact Hw|]. pose proof (el_ok HO V w Hw) as Ow. apply found_splits in Sk. apply (proj1 (positions _ r I k HI Sk)) in Hin as [A B]. split.
      + intros L e E. apply (T e (Hok e (nth_error_In _ _ E)) Ow). exact (A L e E).
      + intros L e E. apply (T e (Hok e (nth_error_In _ _ E)) Ow). exact (B L e E).
  Qed.

  (** Scalars. *)
  Lemma comp_rel c v w : comp_bool c v w = rel_holds (rel_of c) v w.
  Proof. now destruct c. Qed.
  Definition scalar_search (s : bool) c r v := if s then lower_bound_scalar_by c r v else upper_bound_scalar_by c r v.
  Lemma scalar_search_spec s c r v : arranged c r -> ok v ->
    exists k i, found s c r v k /\ (forall k', found s c r v k' -> k' = k) /\ scalar_search s c r v = Ret i /\ idx i = Z.of_nat k.
  Proof.
    intros S Hv. destruct (found_exists s c r v S Hv) as (k & Hk).
    assert (E : exists i, scalar_search s c r v = Ret i /\ idx i = Z.of_nat k).
    { apply found_splits in Hk. unfold scalar_search. destruct s; apply partition_point_bool_ok; try (intros e _; eexists; reflexivity); revert Hk; apply splits_ext; intros e _;
        unfold lower_pred_scalar_by, upper_pred_scalar_by, test; rewrite comp_rel; (split; [congruence|intros H; now injection H]). }
    destruct E as (i & Hi). exists k, i. split; [exact Hk|]. split; [|exact Hi]. intros k' Hk'. apply found_splits in Hk, Hk'. exact (splits_unique _ r k' k Hk' Hk).
  Qed.

  (** A search with [<=] is the other search with [<], and likewise for [>=] and [>]. *)
  Definition strict_of c : comparator := match c with LessEq => Less | GreaterEq => Greater | _ => c end.
  Lemma weak_strict s c r v k : arranged c r -> ok v -> (c = LessEq \/ c = GreaterEq) -> (found s c r v k <-> found (negb s) (strict_of c) r v k).
  Proof.
    intros S Hv Hc. pose proof (arranged_ok c r S) as Hok. rewrite !found_splits. split; apply splits_ext; intros e He; apply Hok in He; unfold test; destruct Hc as [-> | ->], s; cbn; split; intros H; 
      repeat match goal with H : negb _ = true |- _ => apply negb_true_iff in H end; try (apply negb_true_iff); ord HO.
  Qed.
End Search.

(** Data for the examples. *)
Definition r7331 : list int32 := [i32 7; i32 3; i32 3; i32 1].
Lemma r7331_arranged : arranged Greater r7331.
Proof.
  intros i j v w L Ei Ej.
  do 4 (destruct j as [|j]; [do 4 (destruct i as [|i]; [try lia; cbn in Ei, Ej; injection Ei as <-; injection Ej as <-; reflexivity|]); lia|]). destruct j; discriminate Ej.
Qed.
Lemma same_iter_ivl {n} (P Q : ivl (iter_ordty n)) : proper P -> proper Q -> same P Q -> P = Q.
Proof.
  intros HP HQ S. apply proper_idx in HP, HQ.
  assert (A : el Q (lo P)) by (apply S, el_idx; lia). assert (B : el Q (hi P)) by (apply S, el_idx; lia).
  assert (C : el P (lo Q)) by (apply S, el_idx; lia). assert (D : el P (hi Q)) by (apply S, el_idx; lia).
  rewrite el_idx in A, B, C, D. destruct P as [l h], Q as [l' h']. cbn [lo hi] in *. f_equal; apply idx_inj; lia.
Qed.
Section Weak.
  Context {O : ordty} (HO : ord_laws O) (dbg : bool).
  Lemma weak_search s c (t : term O) r : arranged c r -> aproper (op_arg (operand_of t)) -> (c = LessEq \/ c = GreaterEq) ->
    partition_point_set (pred_by dbg s c t) r = partition_point_set (pred_by dbg (negb s) (strict_of c) t) r.
  Proof.
    intros S Ht Hc. assert (S' : arranged (strict_of c) r) by (destruct Hc as [-> | ->]; exact S).
    destruct (search_hull HO dbg s c t r Ht S) as (P & -> & HP). destruct (search_hull HO dbg (negb s) (strict_of c) t r Ht S') as (Q & -> & HQ).
    f_equal. apply same_iter_ivl; [exact (is_hull_proper iter_ord_laws _ _ HP)|exact (is_hull_proper iter_ord_laws _ _ HQ)|].
    apply (is_hull_unique iter_ord_laws _ _ _ HP). revert HQ. apply is_hull_ext. intros i.
    split; intros (v & m & Hv & Hm & Hi); exists v, m; (split; [exact Hv|]; split; [|exact Hi]); apply (weak_strict HO s c r v m S (tel_ok HO t v Ht Hv) Hc), Hm.
  Qed.
  Lemma weak_searches (t : term O) r : aproper (op_arg (operand_of t)) ->
    (arranged LessEq r -> lower_bound_by dbg LessEq r (operand_of t) = upper_bound_by dbg Less r (operand_of t)
      /\ upper_bound_by dbg LessEq r (operand_of t) = lower_bound_by dbg Less r (operand_of t))
    /\ (arranged GreaterEq r -> lower_bound_by dbg GreaterEq r (operand_of t) = upper_bound_by dbg Greater r (operand_of t)
      /\ upper_bound_by dbg GreaterEq r (operand_of t) = lower_bound_by dbg Greater r (operand_of t)).
  Proof.
    intros Ht. split; intros S; split.
    - exact (weak_search true LessEq t r S Ht (or_introl eq_refl)).
    - exact (weak_search false LessEq t r S Ht (or_introl eq_refl)).
    - exact (weak_search true GreaterEq t r S Ht (or_intror eq_refl)).
    - exact (weak_search false GreaterEq t r S Ht (or_intror eq_refl)).
  Qed.
End Weak.
