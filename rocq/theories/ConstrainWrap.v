(** Summaries of the lemmas about conditions. *)
From Coq Require Import Bool List Arith.
From Verif Require Import Outcome SetModel Spec SetProofs SetProofs2 Num NumLaws IntervalModel IvlSpec IvlProofs ConstrainModel CondSpec
  ConstrainProofs ConstrainProofs2 ConstrainProofs3 ConstrainProofs4 ConstrainProofs5 ConstrainProofs6.
Import ListNotations.

Section Cond.
  Context {O : ordty} (HO : ord_laws O) (dbg : bool).
  Implicit Types (f g : cform O) (rho : nat -> O).

  Lemma condition_value f : legal f -> exists c, build dbg f = Ret c
    /\ (forall rho b, inside rho f -> truth rho f b -> member (cset c) b) /\ (forall b : bool, member (cset c) b -> possible f b)
    /\ exists c', build dbg (GNot f) = Ret c' /\ forall b : bool, member (cset c') b <-> member (cset c) (negb b).
  Proof.
    intros L. destruct (build_ok HO dbg f L) as (c & E & W & M). exists c. split; [exact E|]. split; [|split].
    - intros rho b I T. apply M. exact (truth_possible rho f b I T).
    - intros b. apply M.
    - destruct (build_ok HO dbg (GNot f) L) as (c' & E' & W' & M'). exists c'. split; [exact E'|]. intros b. now rewrite M', M, possible_not.
  Qed.
  Lemma double_negation f : legal f -> comparisons f = true -> build dbg (GNot (GNot f)) = build dbg f.
  Proof.
    intros L P. destruct (build_ok HO dbg f L) as (c & E & W & M). pose proof (build_pure HO dbg f c L P E) as Q. rewrite !build_bind, E. cbn [bind].
    destruct (c_not_ok HO dbg c W) as (c' & E' & _). rewrite E'. cbn [bind]. exact (c_not_invol HO dbg c Q W c' E').
  Qed.
  Lemma negation_inwards f : legal f -> comparisons f = true -> build dbg (GNot f) = build dbg (nnf false f).
  Proof. intros L P. symmetry. exact (build_neg HO dbg f L P false). Qed.
End Cond.
