(** Vocabulary for client programs: which programs and runs the properties speak about. *)
From Coq Require Import Bool List ZArith.
From Verif Require Import Outcome SetModel Num NumLaws IntervalModel IvlSpec ConstrainModel CondSpec MathModel MathSpec ValueTypes LangModel.
Import ListNotations.

(** Number types of programs: the value types, and the floating-point types with their <cmath>. *)
Inductive prog_type : forall N : num, option (math N) -> Prop :=
| pt_value N : value_type N -> prog_type N None
| pt_math N m : fp_math N m -> prog_type N (Some m).

Section Clean.
  Context {N : num} (M : option (math N)) (dbg : bool).
  (** Divisors without zeros, arguments within the domain of the function. *)
  Definition domain1 (u : unop) (x : arg N) : Prop :=
    match u with
    | USqrt | ULog => nonneg (alower x)
    | UAsin | UAcos => within_one (alower x) /\ within_one (aupper x)
    | _ => True
    end.
  Definition domain2 (b : binop) (y : arg N) : Prop := match b with BDiv => ~ exists v, ael y v /\ is_zero v | _ => True end.
  (** The interval evaluation meets no NaN and leaves no domain. *)
  Definition number (o : outcome (arg N)) : Prop := forall x, o = Ret x -> aproper x.
  Fixpoint eclean (V : list (arg N)) (e : expr N) : Prop :=
    number (ieval M dbg V e) /\
    match e with
    | EVar _ | ELit _ => True
    | EUn u e => eclean V e /\ forall x, ieval M dbg V e = Ret x -> domain1 u x
    | EBin b e f => eclean V e /\ eclean V f /\ forall y, ieval M dbg V f = Ret y -> domain2 b y
    | EIf t e f => tclean V t /\ eclean V e /\ eclean V f
    end
  with tclean (V : list (arg N)) (t : test N) : Prop :=
    match t with
    | QRel _ e f => eclean V e /\ eclean V f
    | QNot t => tclean V t
    | QAnd t u | QOr t u => tclean V t /\ tclean V u
    end.
  (** The same for every statement the interval run reaches. *)
  Fixpoint pclean (V : list (arg N)) (cs : list (cond N)) (p : prog N) : Prop :=
    match p with
    | PSkip => True
    | PAssign e => eclean V e
    | PSeq p q => pclean V cs p /\ pclean V cs q
    | PLet e p => eclean V e /\ forall x, ieval M dbg V e = Ret x -> pclean (V ++ [x]) cs p
    | PCall f p => pclean V cs f /\ forall R, irun M dbg V cs f ivl_default = Ret R -> pclean (V ++ [Iv R]) cs p
    | PIf t p q =>
        tclean V t /\ forall c, itest M dbg V t = Ret c ->
        (cpossible c = true -> pclean V (c :: cs) p)
        /\ (cpossible_not c = true -> forall c', c_not dbg c = Ret c' -> pclean V (c' :: cs) q)
    | PConstrain x k p => forall X c Z, ilookup V x = Ret (Iv X) -> ikexp cs k = Ret c -> constrain dbg x X c = Ret Z -> pclean (V ++ [Iv Z]) cs p
    end.
End Clean.

Section Syntax.
  Context {N : num}.
  (** Functions of the program satisfy [P]. *)
  Fixpoint efuns (P : unop -> Prop) (e : expr N) : Prop :=
    match e with
    | EVar _ | ELit _ => True
    | EUn u e => P u /\ efuns P e
    | EBin _ e f => efuns P e /\ efuns P f
    | EIf t e f => tfuns P t /\ efuns P e /\ efuns P f
    end
  with tfuns (P : unop -> Prop) (t : test N) : Prop :=
    match t with
    | QRel _ e f => efuns P e /\ efuns P f
    | QNot t => tfuns P t
    | QAnd t u | QOr t u => tfuns P t /\ tfuns P u
    end.
  Fixpoint pfuns (P : unop -> Prop) (p : prog N) : Prop :=
    match p with
    | PSkip => True
    | PAssign e => efuns P e
    | PSeq p q | PCall p q => pfuns P p /\ pfuns P q
    | PLet e p => efuns P e /\ pfuns P p
    | PIf t p q => tfuns P t /\ pfuns P p /\ pfuns P q
    | PConstrain _ _ p => pfuns P p
    end.

  (** The expression (the test) is an interval (a set-valued condition) in the instantiation with intervals; [ks] tells this for
      the variables. *)
  Fixpoint evaries (ks : list bool) (e : expr N) : bool :=
    match e with
    | EVar i => nth i ks false
    | ELit _ => false
    | EUn _ e => evaries ks e
    | EBin _ e f => evaries ks e || evaries ks f
    | EIf t e f => tvaries ks t || evaries ks e || evaries ks f
    end
  with tvaries (ks : list bool) (t : test N) : bool :=
    match t with
    | QRel _ e f => evaries ks e || evaries ks f
    | QNot t => tvaries ks t
    | QAnd t u | QOr t u => tvaries ks t || tvaries ks u
    end.
  (** Every comparison of the test has an interval operand. *)
  Fixpoint all_vary (ks : list bool) (t : test N) : bool :=
    match t with
    | QRel _ e f => evaries ks e || evaries ks f
    | QNot t => all_vary ks t
    | QAnd t u | QOr t u => all_vary ks t && all_vary ks u
    end.
  (** The test (its negation if [pol] is false) is a conjunction of comparisons. *)
  Fixpoint conj_test (pol : bool) (t : test N) : bool :=
    match t with
    | QRel _ _ _ => true
    | QNot t => conj_test (negb pol) t
    | QAnd t u => pol && conj_test pol t && conj_test pol u
    | QOr t u => negb pol && conj_test pol t && conj_test pol u
    end.
  (** The variable [x] is an operand of some comparison. *)
  Definition is_var (x : nat) (e : expr N) : bool := match e with EVar i => Nat.eqb i x | _ => false end.
  Fixpoint names (x : nat) (t : test N) : bool :=
    match t with
    | QRel _ e f => is_var x e || is_var x f
    | QNot t => names x t
    | QAnd t u | QOr t u => names x t || names x u
    end.
  (** A condition of an enclosing branch: the variables known at that point, the test, and which branch it is. *)
  Definition branch : Type := list bool * bool * test N.
  Fixpoint all_k (P : branch -> bool) (bs : list branch) (k : kexp) : bool :=
    match k with
    | KVar k => match nth_error bs k with Some b => P b | None => false end
    | KAnd k l => all_k P bs k && all_k P bs l
    end.
  Fixpoint some_k (P : branch -> bool) (bs : list branch) (k : kexp) : bool :=
    match k with
    | KVar k => match nth_error bs k with Some b => P b | None => false end
    | KAnd k l => some_k P bs k || some_k P bs l
    end.
  (** The statement assigns the result in every run with numbers. *)
  Fixpoint complete (p : prog N) : bool :=
    match p with
    | PSkip => false
    | PAssign _ => true
    | PSeq p q => complete p || complete q
    | PLet _ p | PCall _ p | PConstrain _ _ p => complete p
    | PIf _ p q => complete p && complete q
    end.
  (** Well-formed programs: constraints are conjunctions of comparisons that mention the constrained variable, and called functions
      assign their result. *)
  Fixpoint well_formed (ks : list bool) (bs : list branch) (p : prog N) : bool :=
    match p with
    | PSkip | PAssign _ => true
    | PSeq p q => well_formed ks bs p && well_formed ks bs q
    | PLet e p => well_formed (ks ++ [evaries ks e]) bs p
    | PCall f p => complete f && well_formed ks bs f && well_formed (ks ++ [true]) bs p
    | PIf t p q => well_formed ks ((ks, true, t) :: bs) p && well_formed ks ((ks, false, t) :: bs) q
    | PConstrain x k p =>
        nth x ks false && all_k (fun b => let '(ks, pol, t) := b in all_vary ks t && conj_test pol t) bs k
        && some_k (fun b => let '(_, _, t) := b in names x t) bs k && well_formed (ks ++ [true]) bs p
    end.
End Syntax.
Arguments branch N : clear implicits.

(** What is required of the functions of <cmath>: monotonicity; the other functions need nothing. *)
Definition monotone {N : num} (M : option (math N)) (u : unop) : Prop :=
  forall m, M = Some m ->
  match u with
  | UCbrt => increasing anywhere (m_cbrt m) | UExp => increasing anywhere (m_exp m) | UAtan => increasing anywhere (m_atan m)
  | ULog => increasing nonneg (m_log m) | UAsin => increasing within_one (m_asin m) | UAcos => decreasing within_one (m_acos m)
  | _ => True
  end.
