(** Vocabulary for the rounding errors of whole expressions (C80). *)
From Coq Require Import Reals ZArith Bool List.
From Flocq Require Import Core BinarySingleNaN.
From Verif Require Import Outcome Num IntervalModel MathModel MathSpec FloatNum FloatMath RoundSpec MachineSpec RealMath LangModel.
Import ListNotations.
Open Scope R_scope.

(** ** The value of an expression at real numbers, by the mathematical meaning of the operations *)
Definition bin_value (b : binop) (r s v : R) : Prop :=
  match b with
  | BAdd => v = r + s | BSub => v = r - s | BMul => v = r * s | BDiv => s <> 0 /\ v = r / s | BMin => v = Rmin r s | BMax => v = Rmax r s
  end.
Definition un_value (u : unop) (r v : R) : Prop :=
  match u with
  | UPlus => v = r | UNeg => v = - r | USquare => v = r * r | UCube => v = r * r * r | UAbs => v = Rabs r | USqrt => 0 <= r /\ v = sqrt r
  | UExp => v = exp r | ULog => 0 < r /\ v = ln r | UAtan => v = atan r
  | UCbrt | UAsin | UAcos | UFloor | UCeil | URound => False
  end.

Section Accumulated.
  Context {prec emax : Z} {Hp : Prec_gt_0 prec} {He : Prec_lt_emax prec emax}.
  Notation F := (float_num prec emax Hp He).
  Fixpoint exact (rs : list R) (e : expr F) (v : R) : Prop :=
    match e with
    | EVar i => nth_error rs i = Some v
    | ELit c => v = B2R c
    | EUn u e => exists r, exact rs e r /\ un_value u r v
    | EBin b e f => exists r s, exact rs e r /\ exact rs f s /\ bin_value b r s v
    | EIf _ _ _ => False
    end.
  (** [v] lies between the end points up to [d]. *)
  Definition near (d : R) (a : arg F) (v : R) : Prop := B2R (alower a) - d <= v <= B2R (aupper a) + d.
  Definition finite_ends (a : arg F) : Prop := is_finite (alower a) = true /\ is_finite (aupper a) = true.
  (** The largest and, for an interval without zero, the smallest magnitude of an element. *)
  Definition magnitude (a : arg F) : R := Rmax (Rabs (B2R (alower a))) (Rabs (B2R (aupper a))).
  Definition mignitude (a : arg F) : R := Rmin (Rabs (B2R (alower a))) (Rabs (B2R (aupper a))).

  (** ** The error bound
      A running error analysis: the error of the result [a] of an operation with arguments [x], [y] of errors [dx], [dy]. *)
  Definition roundoff (a : arg F) : R := half_ulp prec emax (magnitude a).
  Definition bin_bound (b : binop) (dx dy : R) (x y a : arg F) : R :=
    match b with
    | BAdd | BSub => dx + dy + roundoff a
    | BMul => dx * magnitude y + magnitude x * dy + dx * dy + roundoff a
    | BDiv => (dx + magnitude x / mignitude y * dy) / (mignitude y - dy) + roundoff a
    | BMin | BMax => Rmax dx dy
    end.
  (** [acc]: the accuracy of the functions of the C library. *)
  Context (L : libm (binary_float prec emax)) (acc : unop -> R).
  Definition un_bound (u : unop) (d : R) (x a : arg F) : R :=
    let m := magnitude x in
    match u with
    | USquare => d * (2 * m + d) + roundoff a
    | UCube => d * (3 * m * m + 3 * m * d + d * d) + m * half_ulp prec emax (m * m) + roundoff a
    | USqrt => d / (sqrt (B2R (alower x) - d) + sqrt (B2R (alower x))) + roundoff a
    | UExp => exp (B2R (aupper x)) * (exp d - 1) + acc UExp
    | ULog => d / (B2R (alower x) - d) + acc ULog
    | UAtan => d + acc UAtan
    | _ => d
    end.
  (** Where the analysis applies: divisors stay away from zero, arguments inside of the domain, by more than their error. *)
  Definition bin_safe (b : binop) (dy : R) (y : arg F) : Prop := match b with BDiv => ~ within y 0 /\ dy < mignitude y | _ => True end.
  Definition un_safe (u : unop) (d : R) (x : arg F) : Prop :=
    match u with
    | USqrt => d <= B2R (alower x)
    | UExp => fn_within (Hp := Hp) (He := He) (acc UExp) exp (l_exp L) x /\ @increasing F anywhere (m_exp (float_math prec emax Hp He L))
    | ULog => d < B2R (alower x) /\ fn_within (Hp := Hp) (He := He) (acc ULog) ln (l_log L) x /\ @increasing F nonneg (m_log (float_math prec emax Hp He L))
    | UAtan => fn_within (Hp := Hp) (He := He) (acc UAtan) atan (l_atan L) x
    | UCbrt | UAsin | UAcos | UFloor | UCeil | URound => False
    | _ => True
    end.

  Context (dbg : bool) (V : list (arg F)).
  Notation run := (ieval (Some (float_math prec emax Hp He L)) dbg V).
  Definition result (e : expr F) : arg F := match run e with Ret a => a | _ => Sc n_zero end.
  Fixpoint error_bound (e : expr F) : R :=
    match e with
    | EVar _ | ELit _ | EIf _ _ _ => 0
    | EUn u f => un_bound u (error_bound f) (result f) (result e)
    | EBin b f g => bin_bound b (error_bound f) (error_bound g) (result f) (result g) (result e)
    end.
  (** No intermediate result overflows, and the operations are applied where the analysis applies. *)
  Fixpoint analysable (e : expr F) : Prop :=
    (forall a, run e = Ret a -> finite_ends a) /\
    match e with
    | EVar _ | ELit _ => True
    | EUn u f => analysable f /\ (forall x, run f = Ret x -> un_safe u (error_bound f) x)
    | EBin b f g => analysable f /\ analysable g /\ (forall y, run g = Ret y -> bin_safe b (error_bound g) y)
    | EIf _ _ _ => False
    end.
End Accumulated.
