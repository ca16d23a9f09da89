(** [as_regular<T>] behaves like an assignable variable. *)
From Coq Require Import List Arith Lia Bool.
From Verif Require Import Outcome RegularModel RegularSpec.
Import ListNotations.

Section Proofs.
  Context {V : Type} (copy move : V -> outcome V).
  Notation st := (nat -> option V).
  (** Constructors return or throw. *)
  Definition returns_or_throws (f : V -> outcome V) : Prop := forall v, f v = Throw \/ exists w, f v = Ret w.

  Lemma upd_same (h : st) a o : upd h a o a = o. Proof. unfold upd. now rewrite Nat.eqb_refl. Qed.
  Lemma upd_other (h : st) a b o : b <> a -> upd h a o b = h b. Proof. intros H. unfold upd. now rewrite (proj2 (Nat.eqb_neq b a) H). Qed.
  Hint Rewrite upd_same : upd.
  Ltac look := repeat match goal with
    | |- context [upd _ ?a _ ?a] => rewrite upd_same
    | H : context [upd _ ?a _ ?a] |- _ => rewrite upd_same in H
    | N : ?b <> ?a |- context [upd _ ?a _ ?b] => rewrite (upd_other _ a b _ N)
    | N : ?b <> ?a, H : context [upd _ ?a _ ?b] |- _ => rewrite (upd_other _ a b _ N) in H
    | N : ?a <> ?b |- context [upd _ ?a _ ?b] => rewrite (upd_other _ a b _ (fun e => N (eq_sym e)))
    | N : ?a <> ?b, H : context [upd _ ?a _ ?b] |- _ => rewrite (upd_other _ a b _ (fun e => N (eq_sym e))) in H
    end.

  Lemma copy_assign_ok t a b u v w l (g : st) : t <> a -> t <> b -> g t = None -> g a = Some u -> g b = Some v -> copy v = Ret w -> move w = Ret l ->
    exists g', copy_assign copy move t a b g = (Ret tt, g') /\ g' a = Some w /\ forall x, x <> a -> g' x = g x.
  Proof.
    intros Ta Tb Ht Ha Hb Ec Em. unfold copy_assign, alive, copy_construct. rewrite Ha. cbn [andthen]. rewrite Ht, Hb, Ec. cbn [andthen]. unfold construct_inplace, destroy. look. rewrite Ha. cbn [andthen].
    unfold move_construct. look. rewrite Em. cbn [noexcept_ andthen]. look. eexists. split; [reflexivity|]. split; [now look|].
    intros x Hx. destruct (Nat.eq_dec x t) as [->|Hn]; look; auto.
  Qed.
  Lemma move_assign_ok a b u v l (g : st) : a <> b -> g a = Some u -> g b = Some v -> move v = Ret l ->
    exists g', move_assign move a b g = (Ret tt, g') /\ g' a = Some v /\ g' b = Some l /\ forall x, x <> a -> x <> b -> g' x = g x.
  Proof.
    intros N Ha Hb Em. unfold move_assign, construct_inplace, destroy. rewrite Ha. cbn [andthen]. unfold move_construct. look. rewrite Hb, Em. cbn [noexcept_ andthen].
    eexists. split; [reflexivity|]. split; [now look|]. split; [now look|]. intros x H1 H2. now look.
  Qed.
  Lemma move_assign_fails a b u v (g : st) : a <> b -> g a = Some u -> g b = Some v -> move v = Throw -> fst (move_assign move a b g) = FailFast.
  Proof. intros N Ha Hb Em. unfold move_assign, construct_inplace, destroy. rewrite Ha. cbn [andthen]. unfold move_construct. look. now rewrite Hb, Em. Qed.
  Lemma self_move a (g : st) : fst (move_assign move a a g) = UB.
  Proof. unfold move_assign, construct_inplace, destroy. destruct (g a) eqn:E; [|reflexivity]. cbn [andthen]. unfold move_construct. now look. Qed.

  (** One command: either it is undefined, or it has the specified effect, or a move constructor threw in a function that is [noexcept]. *)
  Ltac inv E := injection E as <- <-.
  Ltac bad Ho := destruct Ho; discriminate.
  Lemma step_cases t c (g : st) : returns_or_throws copy -> returns_or_throws move -> ~ In t (addresses c) -> g t = None ->
    (~ permitted c g /\ fst (rstep copy move t c g) = UB)
    \/ (permitted c g /\ ((exists o g', rstep copy move t c g = (o, g') /\ (o = Ret tt \/ o = Throw) /\ effect copy move c g o g')
                         \/ (fst (rstep copy move t c g) = FailFast /\ exists v, move v = Throw))).
  Proof.
    intros HC HM Hin Ht. destruct c as [a v|a b|a b|a b|a b|a]; cbn [rstep addresses In permitted] in *.
    - destruct (g a) eqn:Ea; [left; split; [discriminate|reflexivity]|right]. split; [reflexivity|left]. eexists _, _. split; [reflexivity|]. split; [auto|].
      apply ef_init; [exact Ea|now look|]. intros x Hx. now look.
    - unfold copy_construct. destruct (g a) eqn:Ea; [left; split; [intros []; discriminate|reflexivity]|]. destruct (g b) as [v|] eqn:Eb; [right|left; split; [intros [_ []]; reflexivity|reflexivity]].
      split; [split; [reflexivity|discriminate]|left]. destruct (HC v) as [Ec|[w Ec]]; rewrite Ec; eexists _, _; (split; [reflexivity|]); (split; [auto|]).
      + eapply ef_copy_init_throws; eauto.
      + eapply ef_copy_init; eauto; [now look|]. intros x Hx. now look.
    - unfold move_construct. destruct (g a) eqn:Ea; [left; split; [intros []; discriminate|reflexivity]|]. destruct (g b) as [v|] eqn:Eb; [right|left; split; [intros [_ []]; reflexivity|reflexivity]].
      assert (N : a <> b) by congruence. split; [split; [reflexivity|discriminate]|left]. destruct (HM v) as [Ec|[w Ec]]; rewrite Ec; eexists _, _; (split; [reflexivity|]); (split; [auto|]).
      + eapply ef_move_init_throws; eauto.
      + eapply ef_move_init; eauto; [now look|now look|]. intros x H1 H2. now look.
    - assert (Ta : t <> a) by (intros ->; apply Hin; auto). assert (Tb : t <> b) by (intros ->; apply Hin; auto).
      destruct (g a) as [u|] eqn:Ea; [|left; split; [intros [[] _]; reflexivity|unfold copy_assign, alive; now rewrite Ea]].
      destruct (g b) as [v|] eqn:Eb; [|left; split; [intros [_ []]; reflexivity|unfold copy_assign, alive, copy_construct; rewrite Ea; cbn [andthen]; now rewrite Ht, Eb]].
      right. split; [split; discriminate|]. destruct (HC v) as [Ec|[w Ec]].
      + left. unfold copy_assign, alive, copy_construct. rewrite Ea. cbn [andthen]. rewrite Ht, Eb, Ec. cbn [andthen]. eexists _, _. split; [reflexivity|]. split; [auto|].
        eapply ef_copy_assign_throws; eauto.
      + destruct (HM w) as [Em|[l Em]].
        * right. split; [|eauto]. unfold copy_assign, alive, copy_construct. rewrite Ea. cbn [andthen]. rewrite Ht, Eb, Ec. cbn [andthen]. unfold construct_inplace, destroy. look. rewrite Ea. cbn [andthen].
          unfold move_construct. look. now rewrite Em.
        * left. destruct (copy_assign_ok t a b u v w l g Ta Tb Ht Ea Eb Ec Em) as (g' & E & E1 & E2). exists (Ret tt), g'. split; [exact E|]. split; [auto|]. eapply ef_copy_assign; eauto.
    - destruct (Nat.eq_dec a b) as [<-|N]; [left; split; [intros [K _]; now apply K|apply self_move]|].
      destruct (g a) as [u|] eqn:Ea; [|left; split; [intros (_ & [] & _); reflexivity|unfold move_assign, construct_inplace, destroy; now rewrite Ea]].
      destruct (g b) as [v|] eqn:Eb; [|left; split; [intros (_ & _ & []); reflexivity|unfold move_assign, construct_inplace, destroy; rewrite Ea; cbn [andthen]; unfold move_construct; look; now rewrite Eb]].
      right. split; [split; [exact N|split; discriminate]|]. destruct (HM v) as [Em|[l Em]].
      + right. split; [exact (move_assign_fails a b u v g N Ea Eb Em)|eauto].
      + left. destruct (move_assign_ok a b u v l g N Ea Eb Em) as (g' & E & E1 & E2 & E3). exists (Ret tt), g'. split; [exact E|]. split; [auto|]. eapply ef_move_assign; eauto.
    - unfold destroy. destruct (g a) eqn:Ea; [right|left; split; [intros []; reflexivity|reflexivity]]. split; [discriminate|left]. eexists _, _. split; [reflexivity|]. split; [auto|].
      eapply ef_end; eauto; [now look|]. intros x Hx. now look.
  Qed.

  Lemma effect_elsewhere c (g g' : st) o t : effect copy move c g o g' -> ~ In t (addresses c) -> g' t = g t.
  Proof.
    intros H Hin. destruct H; cbn [addresses In] in Hin; match goal with
    | H : forall x, x <> ?a -> x <> ?b -> _ = _ |- _ => apply H; intros ->; apply Hin; auto
    | H : forall x, x <> ?a -> _ = _ |- _ => apply H; intros ->; apply Hin; auto
    | H : forall x, _ = _ |- _ => apply H
    end.
  Qed.
  (** Programs: UB only if some command is used in a way that is not permitted. *)
  Lemma run_cases t p : returns_or_throws copy -> returns_or_throws move -> Forall (fun c => ~ In t (addresses c)) p -> forall g : st, g t = None ->
    (exists o g', rrun copy move t p g = (o, g') /\ (o = Ret tt \/ o = Throw) /\ effects copy move p g o g')
    \/ (fst (rrun copy move t p g) = FailFast /\ exists v, move v = Throw)
    \/ (fst (rrun copy move t p g) = UB /\ exists p1 c p2 g1, p = p1 ++ c :: p2 /\ effects copy move p1 g (Ret tt) g1 /\ ~ permitted c g1).
  Proof.
    intros HC HM. induction p as [|c p IH]; intros Hin g Ht.
    - left. exists (Ret tt), g. split; [reflexivity|]. split; [auto|]. now apply es_nil.
    - apply Forall_cons_iff in Hin as [Hc Hp]. cbn [rrun]. destruct (step_cases t c g HC HM Hc Ht) as [[K E]|[K [(o & g' & E & Ho & Ef)|[E F]]]].
      + right. right. destruct (rstep copy move t c g) as [o g']. cbn in E. subst o. split; [reflexivity|]. exists [], c, p, g. split; [reflexivity|]. split; [now apply es_nil|exact K].
      + rewrite E. destruct Ho as [->| ->]; cbn [andthen].
        * destruct (IH Hp g') as [(o & g'' & E' & Ho & Es)|[[E' F]|(E' & p1 & c' & p2 & g1 & -> & Es & Hn)]].
          -- now rewrite (effect_elsewhere c g g' _ t Ef Hc).
          -- left. exists o, g''. split; [exact E'|]. split; [exact Ho|]. eapply es_cons; eauto.
          -- right. left. auto.
          -- right. right. split; [exact E'|]. exists (c :: p1), c', p2, g1. split; [reflexivity|]. split; [|exact Hn]. eapply es_cons; eauto.
        * left. exists Throw, g'. split; [reflexivity|]. split; [auto|]. eapply es_throw; eauto.
      + right. left. destruct (rstep copy move t c g) as [o g']. cbn in E. subst o. auto.
  Qed.
  Lemma swap_ok t t' a b u v (g : st) : (forall v, exists l, move v = Ret l) -> t' <> a -> t' <> b -> a <> b -> g t' = None -> g a = Some u -> g b = Some v ->
    exists g', rrun copy move t (swap t' a b) g = (Ret tt, g') /\ g' a = Some v /\ g' b = Some u /\ forall x, x <> a -> x <> b -> g' x = g x.
  Proof.
    intros HM Ta Tb N Ht Ha Hb. destruct (HM u) as [l El], (HM v) as [m Em]. unfold swap. cbn [rrun rstep]. unfold move_construct at 1. rewrite Ht, Ha, El. cbn [andthen].
    destruct (move_assign_ok a b l v m (upd (upd g a (Some l)) t' (Some u)) N) as (g1 & E1 & A1 & B1 & C1); try (now look). rewrite E1. cbn [andthen].
    destruct (move_assign_ok b t' m u l g1) as (g2 & E2 & A2 & B2 & C2); auto; [now rewrite C1 by auto; look|]. rewrite E2. cbn [andthen]. unfold destroy. rewrite B2. cbn [andthen].
    eexists. split; [reflexivity|]. split; [look; now rewrite C2 by auto|]. split; [now look|]. intros x H1 H2. destruct (Nat.eq_dec x t') as [->|Hn]; look; [now rewrite Ht|]. rewrite C2, C1 by auto. now look.
  Qed.
  Lemma swap_self t t' a u (g : st) : (forall v, exists l, move v = Ret l) -> t' <> a -> g t' = None -> g a = Some u -> fst (rrun copy move t (swap t' a a) g) = UB.
  Proof.
    intros HM Ta Ht Ha. destruct (HM u) as [l El]. unfold swap. cbn [rrun rstep]. unfold move_construct at 1. rewrite Ht, Ha, El. cbn [andthen].
    pose proof (self_move a (upd (upd g a (Some l)) t' (Some u))) as E. destruct (move_assign move a a _) as [o g']. cbn in E. now subst o.
  Qed.
End Proofs.
