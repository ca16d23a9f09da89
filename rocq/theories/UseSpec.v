(** Vocabulary for expressions that mention each variable at most once (C79). *)
From Coq Require Import Bool List Arith.
From Verif Require Import Outcome Num IntervalModel IvlSpec MathModel LangModel.
Import ListNotations.

(** The variables of an expression without [if_else], with repetitions. *)
Fixpoint variables {N : num} (e : expr N) : list nat :=
  match e with
  | EVar i => [i]
  | ELit _ => []
  | EUn _ e => variables e
  | EBin _ e f => variables e ++ variables f
  | EIf _ e f => variables e ++ variables f
  end.
(** Each variable is mentioned at most once. *)
Definition single_use {N : num} (e : expr N) : Prop := NoDup (variables e).
(** No [if_else]; [square] and [abs] are applied to variables only. *)
Fixpoint plain {N : num} (e : expr N) : bool :=
  match e with
  | EVar _ | ELit _ => true
  | EUn (USquare | UAbs) e => match e with EVar _ => true | _ => false end
  | EUn _ e => plain e
  | EBin _ e f => plain e && plain f
  | EIf _ _ _ => false
  end.
(** The values of an expression on a box. *)
Definition values {N : num} (M : option (math N)) (dbg : bool) (Xs : list (ivl N)) (e : expr N) (v : N) : Prop :=
  exists xs, Forall2 el Xs xs /\ seval M dbg xs e = Ret v.
