(** Vocabulary for conditions: formulas as a user writes them, their truth for a choice of elements. *)
From Coq Require Import Bool List Arith.
From Verif Require Import Outcome SetModel Spec Num NumLaws IntervalModel IvlSpec ConstrainModel.
Import ListNotations.

Section Cond.
  Context {O : ordty}.

  (** A term: the interval object number [i] with the value [X], or a scalar or temporary interval [a]. *)
  Inductive term := TVar (i : nat) (X : ivl O) | TVal (a : arg O).
  Inductive rel := REq | RNe | RLt | RLe | RGt | RGe.
  (** A condition: plain truth values and sets of truth values, comparisons, and their combinations. *)
  Inductive cform :=
  | GBool (b : bool)
  | GSet (s : bset)
  | GRel (r : rel) (s t : term)
  | GNot (f : cform)
  | GAnd (f g : cform)
  | GOr (f g : cform).

  Definition rel_holds (r : rel) (x y : O) : bool :=
    match r with
    | REq => o_eq x y | RNe => negb (o_eq x y) | RLt => o_lt x y
    | RLe => o_le x y | RGt => o_lt y x | RGe => o_le y x
    end.

  (** Elements of a term. *)
  Definition tel (t : term) (x : O) : Prop := match t with TVar _ X => el X x | TVal a => ael a x end.
  (** Values of a term if every interval object has the value given by [rho]; a temporary interval can have any of its values. *)
  Definition tval (rho : nat -> O) (t : term) (x : O) : Prop := match t with TVar i _ => x = rho i | TVal a => ael a x end.
  (** [truth rho f b]: the formula can evaluate to [b] if the objects have the values given by [rho]. *)
  Inductive truth (rho : nat -> O) : cform -> bool -> Prop :=
  | tr_bool b : truth rho (GBool b) b
  | tr_set s b : member s b -> truth rho (GSet s) b
  | tr_rel r s t x y : tval rho s x -> tval rho t y -> truth rho (GRel r s t) (rel_holds r x y)
  | tr_not f b : truth rho f b -> truth rho (GNot f) (negb b)
  | tr_and f g a b : truth rho f a -> truth rho g b -> truth rho (GAnd f g) (a && b)
  | tr_or f g a b : truth rho f a -> truth rho g b -> truth rho (GOr f g) (a || b).
  (** [possible f b]: the formula can evaluate to [b] if every occurrence of an object can have any of its elements. *)
  Inductive possible : cform -> bool -> Prop :=
  | po_bool b : possible (GBool b) b
  | po_set s b : member s b -> possible (GSet s) b
  | po_rel r s t x y : tel s x -> tel t y -> possible (GRel r s t) (rel_holds r x y)
  | po_not f b : possible f b -> possible (GNot f) (negb b)
  | po_and f g a b : possible f a -> possible g b -> possible (GAnd f g) (a && b)
  | po_or f g a b : possible f a -> possible g b -> possible (GOr f g) (a || b).

  (** All terms of a formula satisfy [P]. *)
  Fixpoint all_terms (P : term -> Prop) (f : cform) : Prop :=
    match f with
    | GBool _ | GSet _ => True
    | GRel _ s t => P s /\ P t
    | GNot f => all_terms P f
    | GAnd f g | GOr f g => all_terms P f /\ all_terms P g
    end.
  Fixpoint all_sets (P : bset -> Prop) (f : cform) : Prop :=
    match f with
    | GSet s => P s
    | GBool _ | GRel _ _ _ => True
    | GNot f => all_sets P f
    | GAnd f g | GOr f g => all_sets P f /\ all_sets P g
    end.
  (** The operands are assigned and free of NaN, the sets of truth values are real and not empty. *)
  Definition legal (f : cform) : Prop :=
    all_terms (fun t => match t with TVar _ X => proper X | TVal a => aproper a end) f
    /\ all_sets (fun s => wf_set s /\ exists b, member s b) f.
  (** [rho] chooses an element of every object. *)
  Definition inside (rho : nat -> O) (f : cform) : Prop :=
    all_terms (fun t => match t with TVar i X => el X (rho i) | TVal _ => True end) f.
  (** Every occurrence of the object [x] has the value [X]. *)
  Definition occurs_as (x : nat) (X : ivl O) (f : cform) : Prop :=
    all_terms (fun t => match t with TVar i Y => i = x -> Y = X | TVal _ => True end) f.

  (** Some comparison has the object [x] as an operand. *)
  Definition tmentions (x : nat) (t : term) : bool := match t with TVar i _ => Nat.eqb i x | TVal _ => false end.
  Fixpoint mentions (x : nat) (f : cform) : bool :=
    match f with
    | GBool _ | GSet _ => false
    | GRel _ s t => tmentions x s || tmentions x t
    | GNot f => mentions x f
    | GAnd f g | GOr f g => mentions x f || mentions x g
    end.
  (** No comparison at all. *)
  Fixpoint plain (f : cform) : bool :=
    match f with
    | GBool _ | GSet _ => true
    | GRel _ _ _ => false
    | GNot f => plain f
    | GAnd f g | GOr f g => plain f && plain g
    end.
  (** Comparisons and their combinations only. *)
  Fixpoint comparisons (f : cform) : bool :=
    match f with
    | GBool _ | GSet _ => false
    | GRel _ _ _ => true
    | GNot f => comparisons f
    | GAnd f g | GOr f g => comparisons f && comparisons g
    end.
  (** Below a negation there are no mixtures of comparisons and plain truth values. *)
  Fixpoint unmixed (f : cform) : bool :=
    match f with
    | GBool _ | GSet _ | GRel _ _ _ => true
    | GNot f => plain f || comparisons f
    | GAnd f g | GOr f g => unmixed f && unmixed g
    end.
  (** Negations of comparisons moved inwards; [nnf false f] is the negation of [f]. *)
  Definition rel_neg (r : rel) : rel :=
    match r with REq => RNe | RNe => REq | RLt => RGe | RGe => RLt | RLe => RGt | RGt => RLe end.
  Fixpoint nnf (p : bool) (f : cform) : cform :=
    match f with
    | GBool _ | GSet _ => if p then f else GNot f
    | GRel r s t => if p then f else GRel (rel_neg r) s t
    | GNot g => if plain g then (if p then f else GNot f) else nnf (negb p) g
    | GAnd g h => if p then GAnd (nnf p g) (nnf p h) else GOr (nnf p g) (nnf p h)
    | GOr g h => if p then GOr (nnf p g) (nnf p h) else GAnd (nnf p g) (nnf p h)
    end.
  (** Comparisons and plain truth values connected by [&] only. *)
  Fixpoint conjunctive (f : cform) : bool :=
    match f with
    | GBool _ | GSet _ | GRel _ _ _ => true
    | GNot f => plain f
    | GAnd f g => conjunctive f && conjunctive g
    | GOr f g => plain f && plain g
    end.
  (** Both sides of every disjunction mention [x], and every conjunction inside a disjunction that may be true at all (occurrences
      of objects chosen independently) is true for some choice of one element per object. *)
  Fixpoint tame (x : nat) (inor : bool) (f : cform) : Prop :=
    match f with
    | GBool _ | GSet _ | GRel _ _ _ => True
    | GNot f => plain f = true
    | GAnd f g =>
        tame x inor f /\ tame x inor g
        /\ (inor = true -> possible (GAnd f g) true -> exists rho, inside rho (GAnd f g) /\ truth rho (GAnd f g) true)
    | GOr f g =>
        plain f && plain g = true
        \/ (mentions x f = true /\ mentions x g = true /\ tame x true f /\ tame x true g)
    end.

  (** [v] is an element of the object [x] that satisfies the comparison for some element of the other operand. *)
  Definition solution (x : nat) (r : rel) (s t : term) (v : O) : Prop :=
    (tmentions x s = true /\ tel s v /\ exists w, tel t w /\ rel_holds r v w = true)
    \/ (tmentions x t = true /\ tel t v /\ exists w, tel s w /\ rel_holds r w v = true).
  Definition rel_weak (r : rel) : rel := match r with RLt => RLe | RGt => RGe | _ => r end.

  (** The condition object a C++ program obtains by evaluating the formula. *)
  Definition operand_of (t : term) : operand O := match t with TVar i X => OpId i X | TVal a => OpVal a end.
  Fixpoint build (dbg : bool) (f : cform) : outcome (cond O) :=
    match f with
    | GBool b => Ret (CBool b)
    | GSet s => Ret (CSet s)
    | GRel REq s t => c_eq dbg (operand_of s) (operand_of t)
    | GRel RNe s t => c_ne dbg (operand_of s) (operand_of t)
    | GRel RLt s t => c_lt dbg (operand_of s) (operand_of t)
    | GRel RLe s t => c_le dbg (operand_of s) (operand_of t)
    | GRel RGt s t => c_gt dbg (operand_of s) (operand_of t)
    | GRel RGe s t => c_ge dbg (operand_of s) (operand_of t)
    | GNot f => c <- build dbg f ;; c_not dbg c
    | GAnd f g => c <- build dbg f ;; d <- build dbg g ;; Ret (c_and c d)
    | GOr f g => c <- build dbg f ;; d <- build dbg g ;; Ret (c_or c d)
    end.
  Definition constrain_by (dbg : bool) (x : nat) (X : ivl O) (f : cform) : outcome (ivl O) :=
    c <- build dbg f ;; constrain dbg x X c.
End Cond.
Arguments term O : clear implicits.
Arguments cform O : clear implicits.

(** Comparisons of a number with an integer [n], which is converted first; the number is on the left if [left]. *)
Definition mixed_holds {O I : ordty} (conv : I -> O) (r : rel) (left : bool) (a : O) (n : I) : bool :=
  if left then rel_holds r a (conv n) else rel_holds r (conv n) a.
(** [n] moved by one towards the values that satisfy a strict comparison. *)
Definition mixed_step {I : ordty} (r : rel) (left : bool) (n : I) : outcome I :=
  match r, left with RLt, true | RGt, false => o_pred n | RLt, false | RGt, true => o_succ n | _, _ => Ret n end.
