(** Debug checks (gsl_ExpectsDebug): what they change and what they reject. *)
From Coq Require Import Bool List ZArith.
From Verif Require Import Outcome SetModel Num IntervalModel IntNum IterModel ConstrainModel AlgoModel MathModel.
Import ListNotations.

(** A debug build ([d]) either agrees with a release build ([r]) or fails fast. *)
Definition agrees_or_fails {A} (d r : outcome A) : Prop := d = r \/ d = FailFast.
(** The operand is an interval whose lower bound exceeds the upper bound. *)
Definition unassigned {O : ordty} (a : arg O) : Prop := exists X, a = Iv X /\ o_lt (hi X) (lo X) = true.

Lemma af_refl {A} (o : outcome A) : agrees_or_fails o o. Proof. now left. Qed.
Lemma af_fail {A} (o : outcome A) : agrees_or_fails FailFast o. Proof. now right. Qed.
Lemma af_bind {A B} (d r : outcome A) (f g : A -> outcome B) : agrees_or_fails d r -> (forall a, agrees_or_fails (f a) (g a)) -> agrees_or_fails (bind d f) (bind r g).
Proof. intros [->| ->] H; [|apply af_fail]. destruct r as [a| | | |]; cbn; try apply af_refl. apply H. Qed.
Lemma af_expects b : agrees_or_fails (expects_debug true b) (expects_debug false b).
Proof. destruct b; [apply af_refl|apply af_fail]. Qed.

Ltac af_step :=
  first
  [ apply af_refl | apply af_expects | assumption
  | apply af_bind; [|intros ?]
  | match goal with
    | |- agrees_or_fails (if ?b then _ else _) (if ?b then _ else _) => destruct b
    | |- agrees_or_fails (match ?x with pair _ _ => _ end) _ => destruct x
    | |- agrees_or_fails (match ?x with Sc _ => _ | Iv _ => _ end) _ => destruct x
    | |- agrees_or_fails (let _ := _ in _) _ => cbv zeta
    end
  | solve [auto with af] ].
Ltac af := repeat af_step.

Create HintDb af.
Section Sets.
  Context {E : enum_type}.
  Implicit Types (s t : vset E).
  Lemma af_set_assign s t : agrees_or_fails (set_assign true s t) (set_assign false s t). Proof. unfold set_assign. af. Qed.
  Lemma af_set_value s : agrees_or_fails (set_value true s) (set_value false s). Proof. unfold set_value. af. Qed.
  Lemma af_set_eq s t : agrees_or_fails (set_eq true s t) (set_eq false s t). Proof. unfold set_eq. af. Qed.
  Lemma af_set_neq s t : agrees_or_fails (set_neq true s t) (set_neq false s t). Proof. unfold set_neq. af. Qed.
  Lemma af_bnot (x : bset) : agrees_or_fails (bnot true x) (bnot false x). Proof. unfold bnot. af. Qed.
  Lemma af_set_if_else c s t : agrees_or_fails (set_if_else true c s t) (set_if_else false c s t).
  Proof. unfold set_if_else. af; apply af_set_assign. Qed.
  Lemma af_set_run s ops : agrees_or_fails (set_run true s ops) (set_run false s ops).
  Proof. revert s. induction ops as [|o ops IH]; intros s; cbn [set_run]; [apply af_refl|]. apply af_bind; [|intros; apply IH]. destruct o; cbn [set_step]; try apply af_refl. apply af_set_assign. Qed.
End Sets.
Global Hint Resolve af_set_assign af_bnot : af.

Section Order.
  Context {O : ordty}.
  Implicit Types (X : ivl O) (x y : arg O).
  Lemma af_lower X : agrees_or_fails (lower true X) (lower false X). Proof. unfold lower. af. Qed.
  Lemma af_upper X : agrees_or_fails (upper true X) (upper false X). Proof. unfold upper. af. Qed.
  Lemma af_infimum x : agrees_or_fails (infimum true x) (infimum false x). Proof. unfold infimum. af. Qed.
  Lemma af_supremum x : agrees_or_fails (supremum true x) (supremum false x). Proof. unfold supremum. af. Qed.
  Lemma af_imin x y : agrees_or_fails (imin true x y) (imin false x y). Proof. unfold imin. af. Qed.
  Lemma af_imax x y : agrees_or_fails (imax true x y) (imax false x y). Proof. unfold imax. af. Qed.
  Lemma af_iprint X : agrees_or_fails (iprint true X) (iprint false X). Proof. unfold iprint. af. Qed.
  Lemma af_rel_eq x y : agrees_or_fails (rel_eq true x y) (rel_eq false x y). Proof. unfold rel_eq, rel_pre. af. Qed.
  Lemma af_rel_neq x y : agrees_or_fails (rel_neq true x y) (rel_neq false x y). Proof. unfold rel_neq, rel_pre. af. Qed.
  Lemma af_rel_lt x y : agrees_or_fails (rel_lt true x y) (rel_lt false x y). Proof. unfold rel_lt, rel_pre. af. Qed.
  Lemma af_rel_leq x y : agrees_or_fails (rel_leq true x y) (rel_leq false x y). Proof. unfold rel_leq, rel_pre. af. Qed.
  Lemma af_rel_gt x y : agrees_or_fails (rel_gt true x y) (rel_gt false x y). Proof. unfold rel_gt, rel_pre. af. Qed.
  Lemma af_rel_geq x y : agrees_or_fails (rel_geq true x y) (rel_geq false x y). Proof. unfold rel_geq, rel_pre. af. Qed.

  Lemma af_c_not (c : cond O) : agrees_or_fails (c_not true c) (c_not false c).
  Proof. induction c; cbn [c_not]; af. Qed.
  Lemma af_dconstrain xid X c k o : agrees_or_fails (dconstrain true xid X c k o) (dconstrain false xid X c k o).
  Proof. revert X k o. induction c; intros X k o; cbn [dconstrain]; af. Qed.
  Lemma af_constrain xid X (c : cond O) : agrees_or_fails (constrain true xid X c) (constrain false xid X c).
  Proof. unfold constrain. apply af_bind; [apply af_dconstrain|]. intros a. af. Qed.
End Order.
Global Hint Resolve af_lower af_upper af_infimum af_supremum af_imin af_imax af_rel_eq af_rel_neq af_rel_lt af_rel_leq af_rel_gt af_rel_geq af_c_not af_dconstrain af_constrain : af.

Section Arith.
  Context {N : num}.
  Implicit Types (X : ivl N) (x y : arg N).
  Lemma af_iplus X : agrees_or_fails (iplus true X) (iplus false X). Proof. unfold iplus. af. Qed.
  Lemma af_ineg X : agrees_or_fails (ineg true X) (ineg false X). Proof. unfold ineg. af. Qed.
  Lemma af_iadd x y : agrees_or_fails (iadd true x y) (iadd false x y). Proof. unfold iadd. af. Qed.
  Lemma af_isub x y : agrees_or_fails (isub true x y) (isub false x y). Proof. unfold isub. af. Qed.
  Lemma af_imul x y : agrees_or_fails (imul true x y) (imul false x y). Proof. unfold imul. af. Qed.
  Lemma af_idiv x y : agrees_or_fails (idiv true x y) (idiv false x y). Proof. unfold idiv. af. Qed.
  Lemma af_signs_mul s X : agrees_or_fails (signs_mul_ivl true s X) (signs_mul_ivl false s X).
  Proof. unfold signs_mul_ivl. apply af_bind; [af|intros]. apply af_bind; [|intros; af]. destruct (scontains s negative_sign); [|af]. apply af_bind; [apply af_ineg|intros; af]. Qed.
  Lemma af_isquare X : agrees_or_fails (isquare true X) (isquare false X). Proof. unfold isquare. af. Qed.
  Lemma af_icube X : agrees_or_fails (icube true X) (icube false X). Proof. unfold icube. af. Qed.
  Lemma af_iabs X : agrees_or_fails (iabs true X) (iabs false X). Proof. unfold iabs. af. Qed.
  Lemma af_isgn X : agrees_or_fails (isgn true X) (isgn false X). Proof. unfold isgn. af. Qed.
End Arith.
Global Hint Resolve af_iplus af_ineg af_iadd af_isub af_imul af_idiv : af.

Section Math.
  Context {N : num} (M : math N).
  Implicit Types (X : ivl N) (x y : arg N) (u v : N).
  Lemma af_ssqrt v : agrees_or_fails (ssqrt M true v) (ssqrt M false v). Proof. unfold ssqrt. af. Qed.
  Lemma af_slog v : agrees_or_fails (slog M true v) (slog M false v). Proof. unfold slog. af. Qed.
  Lemma af_sasin v : agrees_or_fails (sasin M true v) (sasin M false v). Proof. unfold sasin. af. Qed.
  Lemma af_sacos v : agrees_or_fails (sacos M true v) (sacos M false v). Proof. unfold sacos. af. Qed.
  Lemma af_satan2 u v : agrees_or_fails (satan2 M true u v) (satan2 M false u v). Proof. unfold satan2. af. Qed.
  Hint Resolve af_ssqrt af_slog af_sasin af_sacos af_satan2 : af.
  Lemma af_isqrt X : agrees_or_fails (isqrt M true X) (isqrt M false X). Proof. unfold isqrt. af. Qed.
  Lemma af_icbrt X : agrees_or_fails (icbrt M true X) (icbrt M false X). Proof. unfold icbrt. af. Qed.
  Lemma af_ilog X : agrees_or_fails (ilog M true X) (ilog M false X). Proof. unfold ilog. af. Qed.
  Lemma af_iexp X : agrees_or_fails (iexp M true X) (iexp M false X). Proof. unfold iexp. af. Qed.
  Lemma af_iacos X : agrees_or_fails (iacos M true X) (iacos M false X). Proof. unfold iacos. af. Qed.
  Lemma af_iasin X : agrees_or_fails (iasin M true X) (iasin M false X). Proof. unfold iasin. af. Qed.
  Lemma af_iatan X : agrees_or_fails (iatan M true X) (iatan M false X). Proof. unfold iatan. af. Qed.
  Lemma af_amax0 x : agrees_or_fails (amax0 true x) (amax0 false x). Proof. unfold amax0. af. Qed.
  Lemma af_aneg x : agrees_or_fails (aneg true x) (aneg false x). Proof. unfold aneg. af. Qed.
  Lemma af_alog x : agrees_or_fails (alog M true x) (alog M false x). Proof. unfold alog. af; apply af_ilog. Qed.
  Lemma af_aexp x : agrees_or_fails (aexp M true x) (aexp M false x). Proof. unfold aexp. af; apply af_iexp. Qed.
  Lemma af_asign v x : agrees_or_fails (asign true v x) (asign false v x). Proof. unfold asign. af. Qed.
  Lemma af_pnn x : agrees_or_fails (possibly_nonneg true x) (possibly_nonneg false x). Proof. unfold possibly_nonneg. af. Qed.
  Lemma af_pn x : agrees_or_fails (possibly_neg true x) (possibly_neg false x). Proof. unfold possibly_neg. af. Qed.
  Hint Resolve af_amax0 af_aneg af_alog af_aexp af_asign af_pnn af_pn : af.
  Lemma af_ipow x y : agrees_or_fails (ipow M true x y) (ipow M false x y). Proof. unfold ipow. af. Qed.
  Lemma af_icos X : agrees_or_fails (icos M true X) (icos M false X). Proof. unfold icos. af. Qed.
  Hint Resolve af_icos : af.
  Lemma af_isin X : agrees_or_fails (isin M true X) (isin M false X). Proof. unfold isin. af. Qed.
  Lemma af_itan X : agrees_or_fails (itan M true X) (itan M false X). Proof. unfold itan. af. Qed.
  Lemma af_iatan2 y x : agrees_or_fails (iatan2 M true y x) (iatan2 M false y x). Proof. unfold iatan2. af. Qed.
  Lemma af_ifloor X : agrees_or_fails (ifloor M true X) (ifloor M false X). Proof. unfold ifloor. af. Qed.
  Lemma af_iceil X : agrees_or_fails (iceil M true X) (iceil M false X). Proof. unfold iceil. af. Qed.
  Lemma af_iround X : agrees_or_fails (iround M true X) (iround M false X). Proof. unfold iround. af. Qed.
  Lemma af_ifrac X : agrees_or_fails (ifrac M true X) (ifrac M false X). Proof. unfold ifrac. af. Qed.
  Lemma af_iisinf X : agrees_or_fails (iisinf true X) (iisinf false X). Proof. unfold iisinf. af. Qed.
  Hint Resolve af_iisinf : af.
  Lemma af_iisfinite X : agrees_or_fails (iisfinite true X) (iisfinite false X). Proof. unfold iisfinite. af. Qed.
  Lemma af_iisnan X : agrees_or_fails (iisnan true X) (iisnan false X). Proof. unfold iisnan. af. Qed.
End Math.

Section Iter.
  Context {n w : Z}.
  Implicit Types (a b : arg (iter_ordty n)) (d : arg (int_ordty w)).
  Lemma af_it_add a d : agrees_or_fails (it_add true a d) (it_add false a d). Proof. unfold it_add. af. Qed.
  Lemma af_it_add_rev d a : agrees_or_fails (it_add_rev true d a) (it_add_rev false d a). Proof. unfold it_add_rev. af. Qed.
  Lemma af_it_sub a d : agrees_or_fails (it_sub true a d) (it_sub false a d). Proof. unfold it_sub. af. Qed.
  Lemma af_it_diff a b : agrees_or_fails (@it_diff n w true a b) (@it_diff n w false a b). Proof. unfold it_diff. af. Qed.
End Iter.
Lemma af_subscript {N : num} (r : list N) X d : agrees_or_fails (subscript true r X d) (subscript false r X d).
Proof. unfold subscript. apply af_bind; [apply af_it_add|intros; af]. Qed.

Section Partition.
  Context {O : ordty} {A : Type}.
  Lemma af_part_index (r : list A) i : agrees_or_fails (part_index true r i) (part_index false r i). Proof. unfold part_index. af. Qed.
  Lemma af_part_constrain xid X (p : A -> outcome (cond O)) r i : agrees_or_fails (part_constrain true xid X p r i) (part_constrain false xid X p r i).
  Proof. unfold part_constrain. apply af_bind; [apply af_part_index|]. intros j. destruct r; [apply af_refl|]. af. Qed.
  (** the predicate is total: the debug build evaluates it on elements the release build does not look at *)
  Lemma af_part_scalar (x : O) (p : A -> outcome bool) r i : (forall e, exists b, p e = Ret b) ->
    agrees_or_fails (part_constrain_scalar true x p r i) (part_constrain_scalar false x p r i).
  Proof.
    intros Hp. unfold part_constrain_scalar. destruct (part_index true r i) as [j| | | |] eqn:E; [| | | |].
    2: apply af_fail.
    2-4: (unfold part_index, expects_debug, expects in E; destruct i; repeat match type of E with context[if ?b then _ else _] => destruct b end; cbn [bind] in E; discriminate E).
    assert (B : (0 <= val (alower j))%Z /\ (val (aupper j) <= size r)%Z /\ (val (alower j) <= val (aupper j))%Z /\ part_index false r i = Ret j).
    { destruct i as [k|K]; cbn [part_index] in *.
      - unfold expects_debug, expects in E. destruct ((0 <=? val k)%Z && (val k <=? size r)%Z) eqn:G; [|discriminate E]. injection E as <-. apply andb_true_iff in G as [G1 G2]. apply Z.leb_le in G1, G2. cbn. repeat split; auto. apply Z.le_refl.
      - unfold expects_debug, expects in *. destruct (assigned K) eqn:As; [|discriminate E]. destruct ((0 <=? val (lo K))%Z && (val (hi K) <=? size r)%Z) eqn:G; [|discriminate E]. injection E as <-.
        apply andb_true_iff in G as [G1 G2]. apply Z.leb_le in G1, G2. unfold assigned in As. cbn in As. apply negb_true_iff, Z.ltb_ge in As. cbn. repeat split; auto. }
    destruct B as (B1 & B2 & B3 & B4). rewrite B4. cbn [bind]. destruct r as [|e0 r]; [apply af_refl|]. set (r' := e0 :: r) in *.
    assert (El : forall k, (0 <= k < size r')%Z -> exists e, elem r' k = Ret e).
    { intros k Hk. unfold elem. replace (k <? 0)%Z with false by (symmetry; apply Z.ltb_ge; apply Hk). destruct (nth_error r' (Z.to_nat k)) eqn:G; [eauto|].
      apply nth_error_None in G. exfalso. destruct Hk as [K1 K2]. apply (Z2Nat.inj_lt _ _ K1 (Z.le_trans _ _ _ K1 (Z.lt_le_incl _ _ K2))) in K2. rewrite Nat2Z.id in K2. exact (Nat.lt_irrefl _ (Nat.lt_le_trans _ _ _ K2 G)). }
    cbn [andb]. apply af_bind; [|intros _; apply af_bind; [|intros; apply af_refl]].
    - destruct (0 <? val (alower j))%Z eqn:G; [|apply af_refl]. apply Z.ltb_lt in G. destruct (El (val (alower j) - 1)%Z) as (e & ->).
      { split; [apply Z.lt_le_pred in G; rewrite <- Z.sub_1_r in G; exact G|]. apply Z.lt_le_trans with (val (alower j)); [apply Z.lt_sub_pos; reflexivity|exact (Z.le_trans _ _ _ B3 B2)]. }
      cbn [bind]. destruct (Hp e) as (b & ->). cbn [bind]. destruct b; [apply af_refl|apply af_fail].
    - destruct (val (aupper j) <? size r')%Z eqn:G; [|apply af_refl]. apply Z.ltb_lt in G. destruct (El (val (aupper j))) as (e & ->).
      { split; [exact (Z.le_trans _ _ _ B1 B3)|exact G]. }
      cbn [bind]. destruct (Hp e) as (b & ->). cbn [bind]. destruct b; [apply af_fail|apply af_refl].
  Qed.
End Partition.
