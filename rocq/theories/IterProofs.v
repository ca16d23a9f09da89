(** Iterator intervals. *)
From Coq Require Import ZArith Bool List Eqdep_dec Lia.
From Verif Require Import Outcome Num NumLaws SetModel Spec IntervalModel IntNum IntProofs IterModel IvlSpec IvlProofs ArithProofs ArithProofs4 ArithProofs5.
Import ListNotations.
Open Scope Z_scope.

Section Laws.
  Context {n : Z}.
  Lemma idx_range (a : iter n) : 0 <= idx a <= n.
  Proof. destruct a as [z H]. cbn. unfold in_seq in H. apply andb_true_iff in H as [H1 H2]. apply Z.leb_le in H1, H2. lia. Qed.
  Lemma idx_inj (a b : iter n) : idx a = idx b -> a = b.
  Proof. destruct a as [a Ha], b as [b Hb]. cbn. intros <-. f_equal. apply UIP_dec, bool_dec. Qed.
  Lemma iter_of_ret z (a : iter n) : iter_of n z = Ret a <-> idx a = z.
  Proof.
    unfold iter_of. destruct (bool_dec (in_seq n z) true) as [H|H]; split.
    - intros E. injection E as <-. reflexivity.
    - intros <-. apply (f_equal (@Ret (iter n))). apply idx_inj. reflexivity.
    - discriminate.
    - intros <-. destruct a as [z Ha]. cbn in H. contradiction.
  Qed.
  Lemma iter_of_def z : (exists a, iter_of n z = Ret a) <-> 0 <= z <= n.
  Proof.
    split.
    - intros (a & H). apply iter_of_ret in H as <-. apply idx_range.
    - intros H. unfold iter_of. destruct (bool_dec (in_seq n z) true) as [|N]; [eauto|]. exfalso. apply N. unfold in_seq.
      apply andb_true_iff. rewrite !Z.leb_le. lia.
  Qed.
  Lemma iter_of_cases z : iter_of n z = UB \/ exists a, iter_of n z = Ret a.
  Proof. unfold iter_of. destruct (bool_dec _ _); eauto. Qed.
  Lemma iter_ord_laws : ord_laws (iter_ordty n).
  Proof.
    constructor; cbn; unfold ok; cbn.
    - intros a b. destruct (Z.eqb_spec (idx a) (idx b)), (Z.leb_spec (idx a) (idx b)), (Z.leb_spec (idx b) (idx a)); cbn; auto; lia.
    - intros a b. destruct (Z.ltb_spec (idx a) (idx b)), (Z.leb_spec (idx a) (idx b)), (Z.leb_spec (idx b) (idx a)); cbn; auto; lia.
    - intros. rewrite !Z.leb_refl. auto.
    - intros a b _ _. rewrite !Z.leb_le. lia.
    - intros a b c. rewrite !Z.leb_le. lia.
    - intros _ a y Hy z. apply iter_of_ret in Hy. rewrite Z.ltb_lt, Z.leb_le. lia.
    - intros _ a z H. apply Z.ltb_lt in H. apply iter_of_def. pose proof (idx_range a). pose proof (idx_range z). lia.
    - intros _ a y Hy z. apply iter_of_ret in Hy. rewrite Z.ltb_lt, Z.leb_le. lia.
    - intros _ a z H. apply Z.ltb_lt in H. apply iter_of_def. pose proof (idx_range a). pose proof (idx_range z). lia.
    - discriminate.
  Qed.
End Laws.

Lemma el_idx {n} (X : ivl (iter_ordty n)) (q : iter_ordty n) : el X q <-> idx (lo X) <= idx q <= idx (hi X).
Proof. unfold el. cbn. rewrite !Z.leb_le. tauto. Qed.
Lemma proper_idx {n} (X : ivl (iter_ordty n)) : proper X <-> idx (lo X) <= idx (hi X).
Proof. unfold proper. cbn. rewrite !Z.leb_le. tauto. Qed.
Lemma ael_val {w} (d : arg (int_ordty w)) (y : int_ordty w) : ael d y <-> val (alower d) <= val y <= val (aupper d).
Proof. unfold ael. cbn. rewrite !Z.leb_le. tauto. Qed.
Section Generic.
  Context {O1 O2 O' : ordty} (H1 : ord_laws O1) (H2 : ord_laws O2) (H' : ord_laws O').
  (** [f] is monotone in the first argument and monotone or antitone in the second ([lb], [ub] select the end points). *)
  Lemma two_ends (f : O1 -> O2 -> outcome O') (a : arg O1) (b : arg O2) (lb ub : O2) :
    aproper a -> ael b lb -> ael b ub ->
    (forall x y, f x y = UB \/ exists z, f x y = Ret z) ->
    (forall x y zl zu, ael a x -> ael b y -> f (alower a) lb = Ret zl -> f (aupper a) ub = Ret zu -> exists z, f x y = Ret z /\ o_le zl z = true /\ o_le z zu = true) ->
    exact_hull f (l <- f (alower a) lb ;; u <- f (aupper a) ub ;; mk l u) a b.
  Proof.
    intros Pa Hl Hu Hc Hm. pose proof (ael_lower H1 a Pa) as La. pose proof (ael_upper H1 a Pa) as Ua. split.
    - intros Hd. destruct (Hd _ _ La Hl) as (zl & El). destruct (Hd _ _ Ua Hu) as (zu & Eu). rewrite El, Eu. cbn.
      destruct (Hm _ _ zl zu La Hl El Eu) as (z & Ez & L1 & L2). rewrite El in Ez. injection Ez as <-.
      rewrite (mk_proper H' zl zu L2). eexists. split; [reflexivity|]. pose proof (ol_ok _ H' _ _ L2) as [Ol Ou]. unfold ok in *. split; [|split].
      + intros w (x & y & Hx & Hy & Hw). destruct (Hm x y zl zu Hx Hy El Eu) as (z & Ez & L3 & L4). rewrite Hw in Ez. injection Ez as <-. split; assumption.
      + exists zl. split; [exists (alower a), lb; auto|]. cbn. rewrite (ol_eq _ H'). now rewrite Ol.
      + exists zu. split; [exists (aupper a), ub; auto|]. cbn. rewrite (ol_eq _ H'). now rewrite Ou.
    - intros Hn. destruct (Hc (alower a) lb) as [E|(zl & El)]; [now rewrite E|]. destruct (Hc (aupper a) ub) as [E|(zu & Eu)]; [now rewrite El, E|].
      exfalso. apply Hn. intros x y Hx Hy. destruct (Hm x y zl zu Hx Hy El Eu) as (z & Ez & _). eauto.
  Qed.
End Generic.

Section Arith.
  Context {n w : Z} (dbg : bool).
  Implicit Types (a b : arg (iter_ordty n)) (d : arg (int_ordty w)).
  Let HI := @iter_ord_laws n.
  Let HW := @int_ord_laws w.
  Lemma pre2 {O1 O2 : ordty} (L1 : ord_laws O1) (L2 : ord_laws O2) (x : arg O1) (y : arg O2) : aproper x -> aproper y -> expects_debug dbg (aassigned x && aassigned y) = Ret tt.
  Proof. intros Hx Hy. rewrite (aproper_assigned L1 x Hx), (aproper_assigned L2 y Hy). now destruct dbg. Qed.
  Lemma el_le {O : ordty} (x : arg O) v : ael x v -> o_le (alower x) v = true /\ o_le v (aupper x) = true. Proof. auto. Qed.
  Ltac pos := repeat match goal with H : ael _ _ |- _ => apply el_le in H; cbn in H; rewrite !Z.leb_le in H; destruct H end.

  Lemma it_add_exact a d : aproper a -> aproper d -> exact_hull iter_add (it_add dbg a d) a d.
  Proof.
    intros Ha Hd. unfold it_add. rewrite (pre2 HI HW a d Ha Hd). cbn [bind].
    apply (two_ends HI HI); [exact Ha|apply (ael_lower HW), Hd|apply (ael_upper HW), Hd|intros; apply iter_of_cases|].
    intros x y zl zu Hx Hy El Eu. unfold iter_add in *. apply iter_of_ret in El, Eu. pos. pose proof (idx_range zl). pose proof (idx_range zu).
    destruct (proj2 (@iter_of_def n (idx x + val y))) as (z & Ez); [lia|]. exists z. split; [exact Ez|]. apply iter_of_ret in Ez. cbn. rewrite !Z.leb_le. lia.
  Qed.
  Lemma it_add_dec a d : aproper a -> aproper d -> defined2 iter_add a d \/ ~ defined2 iter_add a d.
  Proof.
    intros Ha Hd. destruct (Z.le_decidable 0 (idx (alower a) + val (alower d))) as [L|L].
    - destruct (Z.le_decidable (idx (aupper a) + val (aupper d)) n) as [U|U].
      + left. intros x y Hx Hy. pos. apply iter_of_def. lia.
      + right. intros H. destruct (H _ _ (ael_upper HI a Ha) (ael_upper HW d Hd)) as (z & Hz). apply iter_of_ret in Hz. pose proof (idx_range z). lia.
    - right. intros H. destruct (H _ _ (ael_lower HI a Ha) (ael_lower HW d Hd)) as (z & Hz). apply iter_of_ret in Hz. pose proof (idx_range z). lia.
  Qed.
  Lemma it_add_rev_exact a d : aproper a -> aproper d -> exact_hull iter_add_rev (it_add_rev dbg d a) d a.
  Proof.
    intros Ha Hd. unfold it_add_rev. rewrite (pre2 HW HI d a Hd Ha). cbn [bind].
    apply (two_ends HW HI); [exact Hd|apply (ael_lower HI), Ha|apply (ael_upper HI), Ha|intros; apply iter_of_cases|].
    intros x y zl zu Hx Hy El Eu. unfold iter_add_rev in *. apply iter_of_ret in El, Eu. pos. pose proof (idx_range zl). pose proof (idx_range zu).
    destruct (proj2 (@iter_of_def n (val x + idx y))) as (z & Ez); [lia|]. exists z. split; [exact Ez|]. apply iter_of_ret in Ez. cbn. rewrite !Z.leb_le. lia.
  Qed.
  Lemma it_sub_exact a d : aproper a -> aproper d -> exact_hull iter_sub (it_sub dbg a d) a d.
  Proof.
    intros Ha Hd. unfold it_sub. rewrite (pre2 HI HW a d Ha Hd). cbn [bind].
    apply (two_ends HI HI); [exact Ha|apply (ael_upper HW), Hd|apply (ael_lower HW), Hd|intros; apply iter_of_cases|].
    intros x y zl zu Hx Hy El Eu. unfold iter_sub in *. apply iter_of_ret in El, Eu. pos. pose proof (idx_range zl). pose proof (idx_range zu).
    destruct (proj2 (@iter_of_def n (idx x - val y))) as (z & Ez); [lia|]. exists z. split; [exact Ez|]. apply iter_of_ret in Ez. cbn. rewrite !Z.leb_le. lia.
  Qed.
  Lemma it_diff_exact a b : aproper a -> aproper b -> exact_hull (@iter_diff n w) (it_diff dbg a b) a b.
  Proof.
    intros Ha Hb. unfold it_diff. rewrite (pre2 HI HI a b Ha Hb). cbn [bind].
    apply (two_ends HI HW); [exact Ha|apply (ael_upper HI), Hb|apply (ael_lower HI), Hb|intros; apply int_of_cases|].
    intros x y zl zu Hx Hy El Eu. unfold iter_diff in *. apply int_of_ret in El, Eu. pos. pose proof (val_range _ zl). pose proof (val_range _ zu).
    destruct (proj2 (int_of_def w (idx x - idx y))) as (z & Ez); [lia|]. exists z. split; [exact Ez|]. apply int_of_ret in Ez. cbn. rewrite !Z.leb_le. lia.
  Qed.
  (** differences never overflow if the size of the range is representable *)
  Lemma it_diff_defined a b : aproper a -> aproper b -> 0 <= n <= int_max w -> defined2 (@iter_diff n w) a b.
  Proof. intros Ha Hb Hn x y _ _. apply int_of_def. pose proof (idx_range x). pose proof (idx_range y). unfold int_min, int_max in *. lia. Qed.
  Lemma it_prev_exact (X : ivl (iter_ordty n)) : proper X -> exact_hull1 (@o_pred (iter_ordty n)) (it_prev X) X.
  Proof.
    intros HX. destruct (two_ends HI HI (fun x (_ : iter_ordty n) => @o_pred (iter_ordty n) x) (Iv X) (Iv X) (lo X) (lo X)) as [A B]; auto using (el_lower HI X HX).
    - exact (el_lower HI X HX).
    - exact (el_lower HI X HX).
    - intros; apply iter_of_cases.
    - intros x y zl zu Hx _ El Eu. cbn in *. apply iter_of_ret in El, Eu. pos. pose proof (idx_range zl). pose proof (idx_range zu).
      destruct (proj2 (@iter_of_def n (idx x - 1))) as (z & Ez); [lia|]. exists z. split; [exact Ez|]. apply iter_of_ret in Ez. cbn. rewrite !Z.leb_le. lia.
    - split.
      + intros Hd. destruct A as (Z & HZ & Hh). { intros x y Hx _. exact (Hd x Hx). } exists Z. split; [exact HZ|]. eapply is_hull_ext; [|exact Hh].
        intros v. split; [intros (x & y & Hx & _ & Hv); exists x; auto|intros (x & Hx & Hv); exists x, (lo X)]. split; [exact Hx|]. split; [exact (el_lower HI X HX)|exact Hv].
      + intros Hd. apply B. intros Hd'. apply Hd. intros x Hx. exact (Hd' x (lo X) Hx (el_lower HI X HX)).
  Qed.
  Lemma it_next_exact (X : ivl (iter_ordty n)) : proper X -> exact_hull1 (@o_succ (iter_ordty n)) (it_next X) X.
  Proof.
    intros HX. destruct (two_ends HI HI (fun x (_ : iter_ordty n) => @o_succ (iter_ordty n) x) (Iv X) (Iv X) (lo X) (lo X)) as [A B]; auto using (el_lower HI X HX).
    - exact (el_lower HI X HX).
    - exact (el_lower HI X HX).
    - intros; apply iter_of_cases.
    - intros x y zl zu Hx _ El Eu. cbn in *. apply iter_of_ret in El, Eu. pos. pose proof (idx_range zl). pose proof (idx_range zu).
      destruct (proj2 (@iter_of_def n (idx x + 1))) as (z & Ez); [lia|]. exists z. split; [exact Ez|]. apply iter_of_ret in Ez. cbn. rewrite !Z.leb_le. lia.
    - split.
      + intros Hd. destruct A as (Z & HZ & Hh). { intros x y Hx _. exact (Hd x Hx). } exists Z. split; [exact HZ|]. eapply is_hull_ext; [|exact Hh].
        intros v. split; [intros (x & y & Hx & _ & Hv); exists x; auto|intros (x & Hx & Hv); exists x, (lo X)]. split; [exact Hx|]. split; [exact (el_lower HI X HX)|exact Hv].
      + intros Hd. apply B. intros Hd'. apply Hd. intros x Hx. exact (Hd' x (lo X) Hx (el_lower HI X HX)).
  Qed.
End Arith.

Section Deref.
  Context {N : num} (HN : num_laws N) (dbg : bool) (r : list N).
  Let HO := nl_ord N HN.
  Local Notation n := (Z.of_nat (length r)).
  Let HI := @iter_ord_laws n.
  Implicit Types X : ivl (iter_ordty n).

  Lemma deref_at_ret (p : iter_ordty n) : (exists v, deref_at r p = Ret v) <-> idx p < n.
  Proof.
    unfold deref_at. pose proof (idx_range p) as R. split.
    - intros (v & H). destruct (nth_error r (Z.to_nat (idx p))) eqn:E; [|discriminate]. assert (Z.to_nat (idx p) < length r)%nat by (apply nth_error_Some; congruence). lia.
    - intros H. destruct (nth_error r (Z.to_nat (idx p))) eqn:E; [eauto|]. apply nth_error_None in E. lia.
  Qed.
  Lemma deref_at_in (p : iter_ordty n) v : deref_at r p = Ret v -> In v r.
  Proof. unfold deref_at. destruct (nth_error r (Z.to_nat (idx p))) eqn:E; [|discriminate]. intros H. injection H as <-. eapply nth_error_In; eauto. Qed.

  Lemma deref_loop_ok (P : N -> Prop) fuel : forall (p e : iter_ordty n) res, Forall ok r -> idx e < n -> (Z.to_nat (idx e - idx p + 1) < fuel)%nat -> holds P res ->
    exists Z, deref_loop r fuel p e res = Ret Z /\ holds (fun v => P v \/ exists q, idx p <= idx q <= idx e /\ deref_at r q = Ret v) Z.
  Proof.
    revert P. induction fuel as [|fuel IH]; intros P p e res Hr He Hf Hh; [lia|]. cbn [deref_loop].
    destruct (@o_le (iter_ordty n) p e) eqn:L.
    - cbn in L. apply Z.leb_le in L. destruct (proj2 (deref_at_ret p)) as (v & Hv); [lia|]. rewrite Hv. cbn [bind].
      assert (Ov : ok v) by (rewrite Forall_forall in Hr; apply Hr, (deref_at_in p v Hv)).
      destruct (proj2 (@iter_of_def n (idx p + 1))) as (p' & Hp'); [pose proof (idx_range p); lia|]. change (o_succ p) with (iter_of n (idx p + 1)). rewrite Hp'. cbn [bind].
      apply iter_of_ret in Hp'.
      destruct (IH (fun u => P u \/ o_eq v u = true) p' e (iassign_value res v) Hr He) as (Z & HZ & HhZ).
      + rewrite Hp'. lia.
      + right. apply (holds_assign_value HN P res v Hh Ov).
      + exists Z. split; [exact HZ|]. destruct HhZ as [[-> H0]|HhZ].
        * exfalso. apply (H0 v). left. right. rewrite (ol_eq _ HO). unfold ok in Ov. now rewrite Ov.
        * right. destruct HhZ as (A & (b & Pb & Eb) & (c & Pc & Ec)). split; [|split].
          -- intros u [Hu|(q & Hq & Hu)]; apply A; [auto|]. destruct (Z.eq_dec (idx q) (idx p)) as [E|E].
             ++ apply idx_inj in E as ->. rewrite Hv in Hu. injection Hu as <-. left. right. rewrite (ol_eq _ HO). unfold ok in Ov. now rewrite Ov.
             ++ right. exists q. rewrite Hp'. split; [lia|exact Hu].
          -- destruct Pb as [[Pb|Pb]|(q & Hq & Pb)]; [exists b; auto| |exists b; split; [right; exists q; split; [rewrite Hp' in Hq; lia|exact Pb]|exact Eb]].
             exists v. split; [right; exists p; split; [lia|exact Hv]|]. clear - HO Pb Eb. ord HO.
          -- destruct Pc as [[Pc|Pc]|(q & Hq & Pc)]; [exists c; auto| |exists c; split; [right; exists q; split; [rewrite Hp' in Hq; lia|exact Pc]|exact Ec]].
             exists v. split; [right; exists p; split; [lia|exact Hv]|]. clear - HO Pc Ec. ord HO.
    - cbn in L. apply Z.leb_gt in L. exists res. split; [reflexivity|]. eapply holds_ext; [|exact Hh]. intros v. split; [auto|]. intros [H|(q & Hq & _)]; [exact H|lia].
  Qed.
  Lemma deref_loop_ub fuel : forall (p e : iter_ordty n) res, idx p <= idx e -> idx e = n -> deref_loop r fuel p e res = UB.
  Proof.
    induction fuel as [|fuel IH]; intros p e res Hp He; [reflexivity|]. cbn [deref_loop].
    assert (L : @o_le (iter_ordty n) p e = true) by (cbn; apply Z.leb_le; lia). rewrite L.
    destruct (Z.eq_dec (idx p) n) as [E|E].
    - unfold deref_at. destruct (nth_error r (Z.to_nat (idx p))) eqn:E'; [|reflexivity]. assert (Z.to_nat (idx p) < length r)%nat by (apply nth_error_Some; congruence). lia.
    - destruct (proj2 (deref_at_ret p)) as (v & Hv); [pose proof (idx_range p); lia|]. rewrite Hv. cbn [bind].
      change (o_succ p) with (iter_of n (idx p + 1)). destruct (proj2 (@iter_of_def n (idx p + 1))) as (p' & Hp'); [pose proof (idx_range p); pose proof (idx_range e); lia|].
      rewrite Hp'. cbn [bind]. apply iter_of_ret in Hp'. apply IH; [pose proof (idx_range p); lia|exact He].
  Qed.
  Lemma deref_exact X : proper X -> Forall ok r -> exact_hull1 (O' := N) (deref_at r) (deref r X) X.
  Proof.
    intros HX Hr. pose proof (proj1 (proper_idx X) HX) as HX'. split.
    - intros Hd. assert (He : idx (hi X) < n) by (apply deref_at_ret; apply Hd, (el_upper HI X HX)).
      destruct (deref_loop_ok (fun _ => False) (S (length r)) (lo X) (hi X) ivl_default Hr He) as (Z & HZ & Hh).
      + pose proof (idx_range (lo X)). lia.
      + apply holds_default.
      + exists Z. split; [exact HZ|]. destruct Hh as [[_ Hh]|Hh].
        * exfalso. destruct (Hd _ (el_lower HI X HX)) as (v & Hv). apply (Hh v). right. exists (lo X). split; [exact (conj (Z.le_refl _) HX')|exact Hv].
        * eapply is_hull_ext; [|exact Hh]. intros v. split.
          -- intros [[]|(q & Hq & Hv)]. exists q. split; [|exact Hv]. apply el_idx. lia.
          -- intros (q & Hq & Hv). right. exists q. split; [|exact Hv]. apply el_idx in Hq. lia.
    - intros Hd. apply deref_loop_ub; [exact HX'|]. destruct (Z.eq_dec (idx (hi X)) n) as [|E]; [auto|]. exfalso. apply Hd. intros q Hq.
      apply deref_at_ret. apply el_idx in Hq. pose proof (idx_range (hi X)). lia.
  Qed.
  Lemma deref_unassigned X : assigned X = false -> deref r X = Ret ivl_default.
  Proof. intros H. unfold deref. cbn [deref_loop]. unfold assigned in H. cbn in H. apply negb_false_iff, Z.ltb_lt, Z.leb_gt in H. cbn. now rewrite H. Qed.
  Definition elem_at (x : iter_ordty n) (d : int_ordty 64) : outcome N := y <- iter_add x d ;; deref_at r y.
  Lemma subscript_exact X (d : arg (int_ordty 64)) : proper X -> aproper d -> Forall ok r -> exact_hull (O' := N) elem_at (subscript dbg r X d) (Iv X) d.
  Proof.
    intros HX Hd Hr. destruct (it_add_exact dbg (Iv X) d HX Hd) as [A B]. unfold subscript.
    pose proof (it_add_dec (Iv X) d HX Hd) as D.
    split.
    - intros Hdef. assert (Hadd : defined2 (O1 := iter_ordty n) (O2 := int_ordty 64) (O' := iter_ordty n) iter_add (Iv X) d).
      { intros x y Hx Hy. destruct (Hdef x y Hx Hy) as (v & Hv). unfold elem_at in Hv. destruct (iter_add x y); try discriminate. eauto. }
      destruct (A Hadd) as (Y & HY & Hh). rewrite HY. cbn [bind]. pose proof (is_hull_proper HI _ _ Hh) as PY.
      destruct (deref_exact Y PY Hr) as [C _].
      assert (E : forall q, el Y q -> exists x y, ael (Iv X) x /\ ael d y /\ iter_add x y = Ret q).
      { destruct Hh as (_ & (l & (xl & yl & Xl & Yl & Ll) & El) & (u & (xu & yu & Xu & Yu & Lu) & Eu)). intros q Hq.
        apply (Z.eqb_eq (idx l) (idx (lo Y))) in El. apply (Z.eqb_eq (idx u) (idx (hi Y))) in Eu. apply el_idx in Hq. unfold iter_add in Ll, Lu. apply iter_of_ret in Ll, Lu.
        apply (el_idx X) in Xl, Xu. apply ael_val in Yl, Yu.
        pose proof (idx_range (lo X)) as R1. pose proof (idx_range (hi X)) as R2.
        set (x0 := Z.max (idx (lo X)) (idx q - val (aupper d))).
        assert (P1 : idx (lo X) <= x0 <= idx (hi X)) by (subst x0; lia).
        destruct (proj2 (@iter_of_def n x0)) as (x & Ex); [lia|]. apply iter_of_ret in Ex.
        assert (P2 : val (alower d) <= idx q - x0 <= val (aupper d)) by (subst x0; lia).
        destruct (proj2 (int_of_def 64 (idx q - x0))) as (y & Ey); [pose proof (val_range _ (alower d)); pose proof (val_range _ (aupper d)); lia|]. apply int_of_ret in Ey.
        exists x, y. split; [apply (el_idx X); lia|]. split; [apply ael_val; lia|]. apply iter_of_ret. lia. }
      destruct C as (Z & HZ & Hz).
      { intros q Hq. destruct (E q Hq) as (x & y & Hx & Hy & Hxy). destruct (Hdef x y Hx Hy) as (v & Hv). unfold elem_at in Hv. rewrite Hxy in Hv. cbn in Hv. eauto. }
      exists Z. split; [exact HZ|]. eapply is_hull_ext; [|exact Hz]. intros v. split.
      + intros (q & Hq & Hv). destruct (E q Hq) as (x & y & Hx & Hy & Hxy). exists x, y. split; [exact Hx|]. split; [exact Hy|]. unfold elem_at. now rewrite Hxy.
      + intros (x & y & Hx & Hy & Hv). unfold elem_at in Hv. destruct (iter_add x y) as [q| | | |] eqn:Hxy; try discriminate. cbn in Hv. exists q. split; [|exact Hv].
        apply Hh. exists x, y. auto.
    - intros Hn. destruct D as [D|D]; [|now rewrite (B D)]. destruct (A D) as (Y & HY & Hh). rewrite HY. cbn [bind].
      destruct (deref_exact Y (is_hull_proper HI _ _ Hh) Hr) as [_ C]. apply C. intros Hd'. apply Hn. intros x y Hx Hy. destruct (D x y Hx Hy) as (q & Hq).
      unfold elem_at. rewrite Hq. cbn. apply Hd'. apply Hh. exists x, y. auto.
  Qed.
End Deref.
