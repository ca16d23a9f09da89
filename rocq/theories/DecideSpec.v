(** Vocabulary for rounding errors of expressions with conditions (C84). *)
From Coq Require Import Reals ZArith Bool List.
From Flocq Require Import Core BinarySingleNaN.
From Verif Require Import Outcome Num IntervalModel CondSpec MathModel MathSpec FloatNum FloatMath RoundSpec MachineSpec LangModel AccuSpec.
Import ListNotations.
Open Scope R_scope.

(** ** The value of an expression and the truth of a condition at real numbers *)
Definition rel_real (k : rel) (r s : R) : Prop :=
  match k with REq => r = s | RNe => r <> s | RLt => r < s | RLe => r <= s | RGt => r > s | RGe => r >= s end.

Section Decide.
  Context {prec emax : Z} {Hp : Prec_gt_0 prec} {He : Prec_lt_emax prec emax}.
  Notation F := (float_num prec emax Hp He).
  Fixpoint rvalue (rs : list R) (e : expr F) (v : R) : Prop :=
    match e with
    | EVar i => nth_error rs i = Some v
    | ELit c => v = B2R c
    | EUn u e => exists r, rvalue rs e r /\ un_value u r v
    | EBin b e f => exists r s, rvalue rs e r /\ rvalue rs f s /\ bin_value b r s v
    | EIf t e f => exists b : bool, rtruth rs t b /\ rvalue rs (if b then e else f) v
    end
  with rtruth (rs : list R) (t : test F) (b : bool) : Prop :=
    match t with
    | QRel k e f => exists r s, rvalue rs e r /\ rvalue rs f s /\ (b = true <-> rel_real k r s)
    | QNot t => exists c : bool, rtruth rs t c /\ b = negb c
    | QAnd t u => exists c d : bool, rtruth rs t c /\ rtruth rs u d /\ b = c && d
    | QOr t u => exists c d : bool, rtruth rs t c /\ rtruth rs u d /\ b = c || d
    end.

  (** ** Error bound and decisions
      What may be the case for real numbers that deviate from the operands by at most their errors may be the case for the operands:
      a decision is not taken unless the distance of the operands exceeds their errors. *)
  Definition lt_clear (dx dy : R) (x y : arg F) : Prop := B2R (alower x) - dx < B2R (aupper y) + dy -> B2R (alower x) < B2R (aupper y).
  Definition le_clear (dx dy : R) (x y : arg F) : Prop := B2R (alower x) - dx <= B2R (aupper y) + dy -> B2R (alower x) <= B2R (aupper y).
  Definition one_point (x y : arg F) : Prop := B2R (alower x) = B2R (aupper x) /\ B2R (alower y) = B2R (aupper y) /\ B2R (alower x) = B2R (alower y).
  Definition rel_clear (k : rel) (dx dy : R) (x y : arg F) : Prop :=
    match k with
    | RLt | RGe => lt_clear dx dy x y /\ le_clear dy dx y x
    | RLe | RGt => le_clear dx dy x y /\ lt_clear dy dx y x
    | REq | RNe => le_clear dx dy x y /\ le_clear dy dx y x /\ (one_point x y -> dx = 0 /\ dy = 0)
    end.

  Context (L : libm (binary_float prec emax)) (acc : unop -> R) (dbg : bool) (V : list (arg F)).
  Notation run := (ieval (Some (float_math prec emax Hp He L)) dbg V).
  Fixpoint branch_bound (e : expr F) : R :=
    match e with
    | EVar _ | ELit _ => 0
    | EUn u f => un_bound acc u (branch_bound f) (result L dbg V f) (result L dbg V e)
    | EBin b f g => bin_bound b (branch_bound f) (branch_bound g) (result L dbg V f) (result L dbg V g) (result L dbg V e)
    | EIf _ f g => Rmax (branch_bound f) (branch_bound g)
    end.
  Fixpoint clear_cut (e : expr F) : Prop :=
    (forall a, run e = Ret a -> finite_ends a) /\
    match e with
    | EVar _ | ELit _ => True
    | EUn u f => clear_cut f /\ (forall x, run f = Ret x -> un_safe L acc u (branch_bound f) x)
    | EBin b f g => clear_cut f /\ clear_cut g /\ (forall y, run g = Ret y -> bin_safe b (branch_bound g) y)
    | EIf t f g => tclear_cut t /\ clear_cut f /\ clear_cut g
    end
  with tclear_cut (t : test F) : Prop :=
    match t with
    | QRel k e f => clear_cut e /\ clear_cut f /\ (forall x y, run e = Ret x -> run f = Ret y -> rel_clear k (branch_bound e) (branch_bound f) x y)
    | QNot t => tclear_cut t
    | QAnd t u | QOr t u => tclear_cut t /\ tclear_cut u
    end.
End Decide.
