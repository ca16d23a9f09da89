(** Properties of [as_regular] and of the iterators of [enumerate] (C58, C59). *)
From Coq Require Import Bool List Arith ZArith.
From Verif Require Import Outcome SetModel Spec Num NumLaws IntervalModel IvlSpec IntNum IntProofs ValueTypes AlgoModel AlgoSpec AlgoProofs AlgoProofs2 AlgoProofs3 AlgoProofs4
  RegularModel RegularSpec RegularProofs EnumModel EnumSpec EnumProofs Refute.
Import ListNotations.

(** ** C58 *)
(** Missing: move assignment of a variable to itself, which is not [permitted].
    Every program on variables of type [as_regular<T>], for all constructors of [T] that return or throw: it has the effect of
    plain variables, or a move constructor has thrown inside an assignment, or the first command that is not permitted is undefined. *)
Theorem C58_programs_partial : forall (V : Type) (copy move : V -> outcome V) t p, (forall v, copy v = Throw \/ exists w, copy v = Ret w) ->
  (forall v, move v = Throw \/ exists l, move v = Ret l) -> Forall (fun c => ~ In t (addresses c)) p -> forall g : nat -> option V, g t = None ->
  (exists o g', rrun copy move t p g = (o, g') /\ (o = Ret tt \/ o = Throw) /\ effects copy move p g o g')
  \/ (fst (rrun copy move t p g) = FailFast /\ exists v, move v = Throw)
  \/ (fst (rrun copy move t p g) = UB /\ exists p1 c p2 g1, p = p1 ++ c :: p2 /\ effects copy move p1 g (Ret tt) g1 /\ ~ permitted c g1).
Proof. exact (fun V copy move t p HC HM => run_cases copy move t p HC HM). Qed.
Print Assumptions C58_programs_partial.
Theorem C58_swap : forall (V : Type) (copy move : V -> outcome V) t t' a b u v (g : nat -> option V), (forall v, exists l, move v = Ret l) ->
  t' <> a -> t' <> b -> a <> b -> g t' = None -> g a = Some u -> g b = Some v ->
  exists g', rrun copy move t (swap t' a b) g = (Ret tt, g') /\ g' a = Some v /\ g' b = Some u /\ forall x, x <> a -> x <> b -> g' x = g x.
Proof. exact (fun V copy move => swap_ok copy move). Qed.
Print Assumptions C58_swap.
(** [a = a;] and [b = a;] for values whose move constructor leaves 0 behind, then a copy that throws. *)
Definition ex_copy (n : nat) : outcome nat := if Nat.eqb n 13 then Throw else Ret n.
Definition ex_move (n : nat) : outcome nat := Ret 0.
Definition ex_store : nat -> option nat := fun x => match x with 1 => Some 7 | 2 => Some 8 | 3 => Some 13 | _ => None end.
Example C58_example : fst (rrun ex_copy ex_move 0 [RCopyAssign 1 1; RCopyAssign 2 1; RMoveAssign 1 3] ex_store) = Ret tt
  /\ map (snd (rrun ex_copy ex_move 0 [RCopyAssign 1 1; RCopyAssign 2 1; RMoveAssign 1 3] ex_store)) [0; 1; 2; 3] = [None; Some 13; Some 7; Some 0]
  /\ fst (rrun ex_copy ex_move 0 [RCopyAssign 1 3] ex_store) = Throw /\ map (snd (rrun ex_copy ex_move 0 [RCopyAssign 1 3] ex_store)) [0; 1; 2; 3] = [None; Some 7; Some 8; Some 13]
  /\ map (snd (rrun ex_copy ex_move 0 (swap 4 1 2) ex_store)) [1; 2; 4] = [Some 8; Some 7; None].
Proof. repeat split. Qed.
(** Move assignment of a variable to itself, and hence [std::swap(a, a)], reads a destroyed object. *)
Theorem C58_self_move_refuted : exists (copy move : nat -> outcome nat) t a g, (forall v, copy v = Ret v) /\ (forall v, move v = Ret v) /\ g a = Some 7
  /\ fst (rrun copy move t [RMoveAssign a a] g) = UB /\ fst (rrun copy move t (swap 0 a a) g) = UB.
Proof.
  exact (ex_intro _ (fun v => Ret v) (ex_intro _ (fun v => Ret v) (ex_intro _ 5 (ex_intro _ 1 (ex_intro _ ex_store
    (conj (fun v => eq_refl) (conj (fun v => eq_refl) (conj eq_refl (conj eq_refl eq_refl))))))))).
Qed.
Print Assumptions C58_self_move_refuted.

(** ** C59 *)
Theorem C59_interval : forall O, order_type O -> o_disc O = true -> forall (X : ivl O) (z : O), proper X -> exists l, ascending l /\ (forall v, In v l <-> el X v)
  /\ forall p, client iv_exhausted iv_deref iv_incr iv_post p (fun x => match x with 0 => iv_begin X | S _ => iv_default z end) = list_client p (initially l).
Proof.
  exact (fun O H D X z P => match enumerate_discrete O H D X P with ex_intro _ l (ex_intro _ n (conj E (conj A M))) =>
    ex_intro _ l (conj A (conj M (fun p => iv_client X l n z p (E n (Nat.le_refl n))))) end).
Qed.
Print Assumptions C59_interval.
Theorem C59_set : forall (E : enum_type) (s : vset E), enum_ok E -> wf_set s -> (exists v, member s v) -> exists l, NoDup l /\ (forall v, In v l <-> member s v)
  /\ forall p, exists b, si_begin s = Ret b
    /\ client si_exhausted si_deref si_incr si_post p (fun x => match x with 0 => b | S _ => si_default E end) = list_client p (initially l).
Proof.
  exact (fun E s H W M => match enumerate_set_ok s H W M with ex_intro _ l (ex_intro _ n (conj L (conj N (conj _ K)))) =>
    ex_intro _ l (conj N (conj K (fun p => si_client s l n p (L n (Nat.le_refl n))))) end).
Qed.
Print Assumptions C59_set.
Theorem C59_scalar : forall (T : Type) (v z : T) p,
  client sv_exhausted sv_deref sv_incr sv_post p (fun x => match x with 0 => sv_begin v | S _ => sv_default z end) = list_client p (initially [v]).
Proof. exact (fun T => @sv_client T). Qed.
Print Assumptions C59_scalar.
(** The copy still visits the values that the original has passed; an exhausted iterator fails fast. *)
Example C59_example : proper (@Ivl int32 (i32 4) (i32 5))
  /\ list_client [ICopy 1 0; IDerefPost 0; IDeref 0; IIncr 0; IDone 0; IDeref 1; IDeref 0] (initially [4; 5]) = ([inl 4; inl 5; inr true; inl 4], FailFast).
Proof. split; reflexivity. Qed.
