(** Client programs: function templates written once and instantiated with a number type and with its interval type
    (README.md 30-60 and 273-470; examples/simple1.cpp 12-21, simple2.cpp 12-43, simple3.cpp 14-30).  The library is used through the
    functions modelled in the other files; this file only says how a program calls them.

    Simplifications: one value type per program; parameters and local variables are never modified after their initialisation; a
    literal has the value type.  The number of a variable is its position on the stack and stands for its address. *)
From Coq Require Import Bool List ZArith.
From Verif Require Import Outcome SetModel Num IntervalModel ConstrainModel CondSpec MathModel.
Import ListNotations.

Section Syntax.
  Context {N : num}.
  (** Functions of one and of two arguments (README.md 604-650). *)
  Inductive unop := UPlus | UNeg | USquare | UCube | UAbs | USqrt | UCbrt | UExp | ULog | UAtan | UAsin | UAcos | UFloor | UCeil | URound.
  Inductive binop := BAdd | BSub | BMul | BDiv | BMin | BMax.
  Inductive expr :=
  | EVar (i : nat)
  | ELit (v : N)
  | EUn (u : unop) (e : expr)
  | EBin (b : binop) (e f : expr)
  | EIf (t : test) (e f : expr)      (** [if_else(t, e, f)] *)
  with test :=
  | QRel (r : rel) (e f : expr)
  | QNot (t : test)
  | QAnd (t u : test)                (** [t & u] *)
  | QOr (t u : test).                (** [t | u] *)
  (** A condition to constrain by: the condition of the [k]-th enclosing branch (0: the innermost), or a conjunction of such. *)
  Inductive kexp := KVar (k : nat) | KAnd (k l : kexp).
  (** Statements of a function with the local variable [auto result = T{ }]. *)
  Inductive prog :=
  | PSkip
  | PAssign (e : expr)                          (** [assign_partial(result, e);] *)
  | PSeq (p q : prog)
  | PLet (e : expr) (p : prog)                  (** [auto x = e; p] *)
  | PCall (f p : prog)                          (** [auto x = f(); p] for a local function [f] with its own result *)
  | PIf (t : test) (p q : prog)                 (** [auto c = t; if (possibly(c)) { p } if (possibly_not(c)) { q }] *)
  | PConstrain (x : nat) (k : kexp) (p : prog). (** [auto xc = constrain(x, k); p]; in the second branch [k] is [!c] *)
End Syntax.
Arguments expr N : clear implicits.
Arguments test N : clear implicits.
Arguments prog N : clear implicits.

Section Run.
  Context {N : num} (M : option (math N)) (dbg : bool).

  (** The functions of <cmath> exist for floating-point types only. *)
  Definition with_math {A : Type} (f : math N -> outcome A) : outcome A := match M with Some m => f m | None => UB end.
  (** Functions of numbers (math.hpp 52-191). *)
  Definition sun (u : unop) (v : N) : outcome N :=
    match u with
    | UPlus => Ret v | UNeg => n_neg v | USquare => nsquare v | UCube => ncube v | UAbs => nabs v
    | USqrt => with_math (fun m => ssqrt m dbg v) | UCbrt => with_math (fun m => scbrt m v) | UExp => with_math (fun m => sexp m v)
    | ULog => with_math (fun m => slog m dbg v) | UAtan => with_math (fun m => satan m v) | UAsin => with_math (fun m => sasin m dbg v)
    | UAcos => with_math (fun m => sacos m dbg v) | UFloor => with_math (fun m => sfloor m v) | UCeil => with_math (fun m => sceil m v)
    | URound => with_math (fun m => sround m v)
    end.
  Definition sbin (b : binop) (v w : N) : outcome N :=
    match b with
    | BAdd => n_add v w | BSub => n_sub v w | BMul => n_mul v w | BDiv => n_div v w
    | BMin => Ret (omin v w) | BMax => Ret (omax v w)
    end.
  (** The overloads for intervals (interval.hpp 188-414, 937-1056, 1155-1215). *)
  Definition iun (u : unop) (X : ivl N) : outcome (ivl N) :=
    match u with
    | UPlus => iplus dbg X | UNeg => ineg dbg X | USquare => isquare dbg X | UCube => icube dbg X | UAbs => iabs dbg X
    | USqrt => with_math (fun m => isqrt m dbg X) | UCbrt => with_math (fun m => icbrt m dbg X) | UExp => with_math (fun m => iexp m dbg X)
    | ULog => with_math (fun m => ilog m dbg X) | UAtan => with_math (fun m => iatan m dbg X) | UAsin => with_math (fun m => iasin m dbg X)
    | UAcos => with_math (fun m => iacos m dbg X) | UFloor => with_math (fun m => ifloor m dbg X) | UCeil => with_math (fun m => iceil m dbg X)
    | URound => with_math (fun m => iround m dbg X)
    end.
  Definition ibin (b : binop) (x y : arg N) : outcome (ivl N) :=
    match b with
    | BAdd => iadd dbg x y | BSub => isub dbg x y | BMul => imul dbg x y | BDiv => idiv dbg x y
    | BMin => imin dbg x y | BMax => imax dbg x y
    end.

  (** ** Instantiation with numbers *)
  Definition slookup (V : list N) (i : nat) : outcome N := match nth_error V i with Some v => Ret v | None => UB end.
  Fixpoint seval (V : list N) (e : expr N) : outcome N :=
    match e with
    | EVar i => slookup V i
    | ELit v => Ret v
    | EUn u e => v <- seval V e ;; sun u v
    | EBin b e f => v <- seval V e ;; w <- seval V f ;; sbin b v w
    | EIf t e f => b <- stest V t ;; v <- seval V e ;; w <- seval V f ;; Ret (if_else_b b v w)
    end
  with stest (V : list N) (t : test N) : outcome bool :=
    match t with
    | QRel r e f => v <- seval V e ;; w <- seval V f ;; Ret (rel_holds r v w)
    | QNot t => b <- stest V t ;; Ret (negb b)
    | QAnd t u => b <- stest V t ;; c <- stest V u ;; Ret (b && c)
    | QOr t u => b <- stest V t ;; c <- stest V u ;; Ret (b || c)
    end.
  Fixpoint skexp (bs : list bool) (k : kexp) : outcome bool :=
    match k with
    | KVar k => match nth_error bs k with Some b => Ret b | None => UB end
    | KAnd k l => b <- skexp bs k ;; c <- skexp bs l ;; Ret (b && c)
    end.
  (** [None]: [result] still has its initial value.  [assign_partial] of numbers assigns (math.hpp 269-275); reading the result of
      a called function that has not been assigned is reported as undefined behaviour. *)
  Fixpoint srun (V : list N) (bs : list bool) (p : prog N) (result : option N) : outcome (option N) :=
    match p with
    | PSkip => Ret result
    | PAssign e => v <- seval V e ;; Ret (Some v)
    | PSeq p q => r <- srun V bs p result ;; srun V bs q r
    | PLet e p => v <- seval V e ;; srun (V ++ [v]) bs p result
    | PCall f p => r <- srun V bs f None ;; match r with Some v => srun (V ++ [v]) bs p result | None => UB end
    | PIf t p q =>
        b <- stest V t ;;
        r <- (if possibly_b b then srun V (b :: bs) p result else Ret result) ;;
        if possibly_not_b b then srun V (negb b :: bs) q r else Ret r
    | PConstrain x k p => v <- slookup V x ;; b <- skexp bs k ;; w <- scalar_constrain v b ;; srun (V ++ [w]) bs p result
    end.

  (** ** Instantiation with intervals *)
  (** A variable is an interval, or a number if it was initialised from literals only. *)
  Definition ilookup (V : list (arg N)) (i : nat) : outcome (arg N) := match nth_error V i with Some a => Ret a | None => UB end.
  Definition lift1 (u : unop) (x : arg N) : outcome (arg N) :=
    match x with Sc v => r <- sun u v ;; Ret (Sc r) | Iv X => R <- iun u X ;; Ret (Iv R) end.
  Definition lift2 (b : binop) (x y : arg N) : outcome (arg N) :=
    match x, y with Sc v, Sc w => r <- sbin b v w ;; Ret (Sc r) | _, _ => R <- ibin b x y ;; Ret (Iv R) end.
  Definition as_ivl (x : arg N) : ivl N := match x with Sc v => ivl_of v | Iv X => X end.
  (** The overloads of [if_else] (interval.hpp 1517-1550, logic.hpp 51-56). *)
  Definition lift_if (c : cond N) (x y : arg N) : outcome (arg N) :=
    match c, x, y with
    | CBool b, Sc _, Sc _ | CBool b, Iv _, Iv _ => Ret (if_else_b b x y)
    | _, _, _ => R <- iif_else (cset c) (as_ivl x) (as_ivl y) ;; Ret (Iv R)
    end.
  (** An operand of a comparison: an interval variable is an lvalue, everything else is not. *)
  Definition operand_for (e : expr N) (a : arg N) : operand N :=
    match e, a with EVar i, Iv X => OpId i X | _, _ => OpVal a end.
  (** The relational operators (interval.hpp 109-186); two numbers are compared by the built-in operators. *)
  Definition c_rel (r : rel) (o o' : operand N) : outcome (cond N) :=
    match o, o' with
    | OpVal (Sc v), OpVal (Sc w) => Ret (CBool (rel_holds r v w))
    | _, _ => match r with REq => c_eq dbg o o' | RNe => c_ne dbg o o' | RLt => c_lt dbg o o' | RLe => c_le dbg o o' | RGt => c_gt dbg o o' | RGe => c_ge dbg o o' end
    end.
  Fixpoint ieval (V : list (arg N)) (e : expr N) : outcome (arg N) :=
    match e with
    | EVar i => ilookup V i
    | ELit v => Ret (Sc v)
    | EUn u e => x <- ieval V e ;; lift1 u x
    | EBin b e f => x <- ieval V e ;; y <- ieval V f ;; lift2 b x y
    | EIf t e f => c <- itest V t ;; x <- ieval V e ;; y <- ieval V f ;; lift_if c x y
    end
  with itest (V : list (arg N)) (t : test N) : outcome (cond N) :=
    match t with
    | QRel r e f => x <- ieval V e ;; y <- ieval V f ;; c_rel r (operand_for e x) (operand_for f y)
    | QNot t => c <- itest V t ;; c_not dbg c
    | QAnd t u => c <- itest V t ;; d <- itest V u ;; Ret (c_and c d)
    | QOr t u => c <- itest V t ;; d <- itest V u ;; Ret (c_or c d)
    end.
  (** [possibly_not] of a condition (logic.hpp 22-26, set.hpp 386-390). *)
  Definition cpossible_not (c : cond N) : bool := match c with CBool b => possibly_not_b b | _ => possibly_not (cset c) end.
  Fixpoint ikexp (cs : list (cond N)) (k : kexp) : outcome (cond N) :=
    match k with
    | KVar k => match nth_error cs k with Some c => Ret c | None => UB end
    | KAnd k l => c <- ikexp cs k ;; d <- ikexp cs l ;; Ret (c_and c d)
    end.
  (** [constrain] of a variable that is a number by a set-valued condition does not compile; the model gives [UB]. *)
  Fixpoint irun (V : list (arg N)) (cs : list (cond N)) (p : prog N) (result : ivl N) : outcome (ivl N) :=
    match p with
    | PSkip => Ret result
    | PAssign e => x <- ieval V e ;; free_assign_partial result (as_ivl x)
    | PSeq p q => r <- irun V cs p result ;; irun V cs q r
    | PLet e p => x <- ieval V e ;; irun (V ++ [x]) cs p result
    | PCall f p => R <- irun V cs f ivl_default ;; irun (V ++ [Iv R]) cs p result
    | PIf t p q =>
        c <- itest V t ;;
        r <- (if cpossible c then irun V (c :: cs) p result else Ret result) ;;
        if cpossible_not c then c' <- c_not dbg c ;; irun V (c' :: cs) q r else Ret r
    | PConstrain x k p =>
        a <- ilookup V x ;; c <- ikexp cs k ;;
        match a with Iv X => Z <- constrain dbg x X c ;; irun (V ++ [Iv Z]) cs p result | Sc _ => UB end
    end.
End Run.
