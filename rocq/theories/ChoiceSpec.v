(** Vocabulary for conditions and [if_else] in expressions that mention each variable at most once (C82). *)
From Coq Require Import Bool List Arith.
From Verif Require Import Outcome Num IntervalModel IvlSpec CondSpec MathModel LangModel UseSpec.
Import ListNotations.

Section Choice.
  Context {N : num}.
  (** The variables of an expression, including those in conditions, with repetitions. *)
  Fixpoint evars (e : expr N) : list nat :=
    match e with
    | EVar i => [i]
    | ELit _ => []
    | EUn _ e => evars e
    | EBin _ e f => evars e ++ evars f
    | EIf t e f => tvars t ++ evars e ++ evars f
    end
  with tvars (t : test N) : list nat :=
    match t with
    | QRel _ e f => evars e ++ evars f
    | QNot t => tvars t
    | QAnd t u | QOr t u => tvars t ++ tvars u
    end.
  (** [square] and [abs] are applied to variables only; no equality comparisons. *)
  Fixpoint eplain (e : expr N) : bool :=
    match e with
    | EVar _ | ELit _ => true
    | EUn (USquare | UAbs) e => match e with EVar _ => true | _ => false end
    | EUn _ e => eplain e
    | EBin _ e f => eplain e && eplain f
    | EIf t e f => tplain t && (eplain e && eplain f)
    end
  with tplain (t : test N) : bool :=
    match t with
    | QRel (REq | RNe) _ _ => false
    | QRel _ e f => eplain e && eplain f
    | QNot t => tplain t
    | QAnd t u | QOr t u => tplain t && tplain u
    end.
  (** The truth values of a condition on a box. *)
  Definition tvalues (M : option (math N)) (dbg : bool) (Xs : list (ivl N)) (t : test N) (b : bool) : Prop :=
    exists xs, Forall2 el Xs xs /\ stest M dbg xs t = Ret b.
End Choice.
