(** Iterators of [enumerate] stand for the list of the values still to be visited. *)
From Coq Require Import List Arith Bool ZArith.
From Verif Require Import Outcome Num NumLaws IntervalModel IvlSpec SetModel Spec AlgoModel AlgoSpec EnumModel EnumSpec.
Import ListNotations.

Section Generic.
  Context {I T : Type} (done : I -> bool) (deref_ : I -> outcome T) (incr : I -> outcome I) (post : I -> outcome (I * I)).
  Hypothesis Hdone : forall i, done i = true -> deref_ i = FailFast /\ incr i = FailFast.
  Hypothesis Hpost : forall i, post i = (i' <- incr i ;; Ret (i, i')).

  Definition rep (i : I) (l : list T) : Prop := exists n, for_loop done deref_ incr n i = Some (Ret l).
  Lemma rep_nil i : rep i [] -> done i = true.
  Proof.
    intros [n E]. destruct n as [|n]; cbn in E; destruct (done i); auto; try discriminate E.
    destruct (v <- deref_ i ;; it' <- incr i ;; Ret (v, it')) as [[v i']| | | |]; try discriminate E. destruct (for_loop done deref_ incr n i') as [[l'| | | |]|]; discriminate E.
  Qed.
  Lemma rep_cons i v l : rep i (v :: l) -> done i = false /\ deref_ i = Ret v /\ exists i', incr i = Ret i' /\ rep i' l.
  Proof.
    intros [n E]. destruct n as [|n]; cbn in E; destruct (done i) eqn:D; try discriminate E. split; [reflexivity|].
    destruct (deref_ i) as [w| | | |]; cbn in E; try discriminate E. destruct (incr i) as [i'| | | |]; cbn in E; try discriminate E.
    destruct (for_loop done deref_ incr n i') as [[l'| | | |]|] eqn:E'; cbn in E; try discriminate E. injection E as <- <-. split; [reflexivity|]. exists i'. split; [reflexivity|]. now exists n.
  Qed.
  Lemma client_list p : forall (g : nat -> I) (h : nat -> list T), (forall x, rep (g x) (h x)) -> client done deref_ incr post p g = list_client p h.
  Proof.
    assert (Set_ : forall (g : nat -> I) (h : nat -> list T) x i l, (forall x, rep (g x) (h x)) -> rep i l -> forall y, rep (setv g x i y) (assign_list h x l y)).
    { intros g h x i l H Hi y. unfold setv, assign_list. destruct (Nat.eqb y x); auto. }
    induction p as [|c p IH]; intros g h H; [reflexivity|]. destruct c as [x|x|x|y x|x|y x]; cbn [client list_client].
    - pose proof (H x) as Hx. destruct (h x) as [|v l].
      + now rewrite (proj1 (Hdone _ (rep_nil _ Hx))).
      + destruct (rep_cons _ _ _ Hx) as (_ & -> & _). cbn [oseq]. unfold visit. now rewrite (IH g h H).
    - unfold visit. rewrite (IH g h H). pose proof (H x) as Hx. destruct (h x) as [|v l].
      + now rewrite (rep_nil _ Hx).
      + now destruct (rep_cons _ _ _ Hx) as (-> & _).
    - pose proof (H x) as Hx. destruct (h x) as [|v l].
      + now rewrite (proj2 (Hdone _ (rep_nil _ Hx))).
      + destruct (rep_cons _ _ _ Hx) as (_ & _ & i' & -> & Hr). cbn [oseq]. apply IH. auto.
    - rewrite Hpost. pose proof (H x) as Hx. destruct (h x) as [|v l].
      + now rewrite (proj2 (Hdone _ (rep_nil _ Hx))).
      + destruct (rep_cons _ _ _ Hx) as (_ & _ & i' & -> & Hr). cbn [oseq bind fst snd]. apply IH. auto.
    - rewrite Hpost. pose proof (H x) as Hx. destruct (h x) as [|v l].
      + now rewrite (proj2 (Hdone _ (rep_nil _ Hx))).
      + destruct (rep_cons _ _ _ Hx) as (_ & Ed & i' & -> & Hr). cbn [oseq bind fst snd]. rewrite Ed. cbn [oseq]. unfold visit. rewrite (IH (setv g x i') (assign_list h x l)); auto.
    - apply IH. auto.
  Qed.
  Lemma client_from p b d l : rep b l -> done d = true -> client done deref_ incr post p (fun x => match x with O => b | S _ => d end) = list_client p (initially l).
  Proof. intros Hb Hd. apply client_list. intros [|x]; [exact Hb|]. exists 0. cbn. now rewrite Hd. Qed.
End Generic.

Lemma sv_client {T} (v z : T) p : client sv_exhausted sv_deref sv_incr sv_post p (fun x => match x with O => sv_begin v | S _ => sv_default z end) = list_client p (initially [v]).
Proof.
  apply client_from; [| |now exists 1|reflexivity].
  - intros [w [|]] H; [split; reflexivity|discriminate H].
  - intros [w [|]]; reflexivity.
Qed.
Lemma iv_client {O : ordty} (X : ivl O) l n z p : enumerate_interval n X = Some (Ret l) ->
  client iv_exhausted iv_deref iv_incr iv_post p (fun x => match x with O => iv_begin X | S _ => iv_default z end) = list_client p (initially l).
Proof.
  intros E. apply client_from; [| | |reflexivity].
  - intros [a b [|]] H; [split; reflexivity|discriminate H].
  - reflexivity.
  - exists n. unfold enumerate_interval in E. destruct (assigned X); [exact E|discriminate E].
Qed.
Lemma si_client {E : enum_type} (s : vset E) l n p : enumerate_set n s = Some (Ret l) -> exists b, si_begin s = Ret b /\
  client si_exhausted si_deref si_incr si_post p (fun x => match x with O => b | S _ => si_default E end) = list_client p (initially l).
Proof.
  unfold enumerate_set. destruct (set_assigned s); [|discriminate]. destruct (si_begin s) as [b| | | |]; try discriminate. intros H. exists b. split; [reflexivity|].
  apply client_from; [| | |reflexivity].
  - intros [a i [|]] K; [split; reflexivity|discriminate K].
  - reflexivity.
  - now exists n.
Qed.
