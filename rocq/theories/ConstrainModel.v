(** Conditions with constraint information and [constrain] (interval.hpp 108-186, 1484-1514; detail/interval.hpp 30-100,
    244-289, 319-676), for operands of one value type.  Mixed value types: MixedModel.v. *)
From Coq Require Import Bool List Arith.
From Verif Require Import Outcome SetModel Num IntervalModel.
Import ListNotations.

Section Cond.
  Context {O : ordty} (dbg : bool).

  (** An operand stored in a condition.  [OpId i X]: the [constrained_interval] made from the lvalue interval at address [i]
      that had the value [X] (detail/interval.hpp 30-88, [as_interval] 212-242).  [OpVal a]: a scalar or an rvalue interval,
      which has no identity. *)
  Inductive operand := OpId (i : nat) (X : ivl O) | OpVal (a : arg O).
  Definition op_arg (o : operand) : arg O := match o with OpId _ X => Iv X | OpVal a => a end.

  (** The types a condition expression can have (detail/interval.hpp 319-379): bool and set<bool>, and the structures derived
      from [detail::condition], each with its truth value (base class [set<bool>]) and operands. *)
  Inductive cond :=
  | CBool (b : bool)
  | CSet (s : bset)
  | CLe (v : bset) (l r : operand)
  | CLt (v : bset) (l r : operand)
  | CEq (v : bset) (l r : operand)
  | CNe (v : bset) (l r : operand)
  | CAnd (v : bset) (l r : cond)
  | COr (v : bset) (l r : cond).

  (** [std::derived_from<L, condition>]. *)
  Definition is_cond (c : cond) : bool := match c with CBool _ | CSet _ => false | _ => true end.
  (** The truth value as a set ([as_bool_set_arg], detail/interval.hpp 322-331). *)
  Definition cset (c : cond) : bset :=
    match c with CBool b => bset_of b | CSet v | CLe v _ _ | CLt v _ _ | CEq v _ _ | CNe v _ _ | CAnd v _ _ | COr v _ _ => v end.
  (** [contains(true)], [logic::possibly] of a condition argument. *)
  Definition cpossible (c : cond) : bool := match c with CBool b => possibly_b b | _ => possibly (cset c) end.

  (** The relational operators (interval.hpp 109-186). *)
  Definition c_eq (l r : operand) : outcome cond := v <- rel_eq dbg (op_arg l) (op_arg r) ;; Ret (CEq v l r).
  Definition c_ne (l r : operand) : outcome cond := v <- rel_neq dbg (op_arg l) (op_arg r) ;; Ret (CNe v l r).
  Definition c_lt (l r : operand) : outcome cond := v <- rel_lt dbg (op_arg l) (op_arg r) ;; Ret (CLt v l r).
  Definition c_le (l r : operand) : outcome cond := v <- rel_leq dbg (op_arg l) (op_arg r) ;; Ret (CLe v l r).
  Definition c_gt (l r : operand) : outcome cond := v <- rel_gt dbg (op_arg l) (op_arg r) ;; Ret (CLt v r l).
  Definition c_ge (l r : operand) : outcome cond := v <- rel_geq dbg (op_arg l) (op_arg r) ;; Ret (CLe v r l).

  (** [&], [|] (detail/interval.hpp 381-395; for two plain operands the operators of bool and set<bool>). *)
  Definition and_value (l r : cond) : bset :=
    match l, r with
    | CBool a, _ => band_bs a (cset r)
    | _, CBool b => band_sb (cset l) b
    | _, _ => band (cset l) (cset r)
    end.
  Definition or_value (l r : cond) : bset :=
    match l, r with
    | CBool a, _ => bor_bs a (cset r)
    | _, CBool b => bor_sb (cset l) b
    | _, _ => bor (cset l) (cset r)
    end.
  Definition c_and (l r : cond) : cond :=
    if is_cond l || is_cond r then CAnd (and_value l r) l r
    else match l, r with CBool a, CBool b => CBool (a && b) | _, _ => CSet (and_value l r) end.
  Definition c_or (l r : cond) : cond :=
    if is_cond l || is_cond r then COr (or_value l r) l r
    else match l, r with CBool a, CBool b => CBool (a || b) | _, _ => CSet (or_value l r) end.

  (** [!] (detail/interval.hpp 397-432).  The overloads for conjunctions and disjunctions require both operands to be derived
      from [condition]; otherwise overload resolution takes [operator !] of the base class set<bool>. *)
  Fixpoint c_not (c : cond) : outcome cond :=
    match c with
    | CBool b => Ret (CBool (negb b))
    | CSet s => n <- bnot dbg s ;; Ret (CSet n)
    | CLe v l r => n <- bnot dbg v ;; Ret (CLt n r l)
    | CLt v l r => n <- bnot dbg v ;; Ret (CLe n r l)
    | CEq v l r => n <- bnot dbg v ;; Ret (CNe n l r)
    | CNe v l r => n <- bnot dbg v ;; Ret (CEq n l r)
    | CAnd v l r =>
        n <- bnot dbg v ;;
        if is_cond l && is_cond r then l' <- c_not l ;; r' <- c_not r ;; Ret (COr n l' r') else Ret (CSet n)
    | COr v l r =>
        n <- bnot dbg v ;;
        if is_cond l && is_cond r then l' <- c_not l ;; r' <- c_not r ;; Ret (CAnd n l' r') else Ret (CSet n)
    end.

  (** [matches_identity(x, operand)] (detail/interval.hpp 271-289, 45-55). *)
  Definition op_is (xid : nat) (o : operand) : bool := match o with OpId i _ => Nat.eqb i xid | OpVal _ => false end.

  (** [detail::constrain] (detail/interval.hpp 434-676).  [X] is the value of the interval at address [xid]; [considered] is the
      reference argument [constraintConsidered], returned with the result. *)
  Fixpoint dconstrain (xid : nat) (X : ivl O) (c : cond) (considered optional : bool) : outcome (ivl O * bool) :=
    match c with
    | CBool _ | CSet _ => Ret (X, considered)
    | CLe v l r =>
        if op_is xid l && bcontains v true then
          expects_debug dbg (o_le (lo X) (aupper (op_arg r))) ;;;
          Z <- mk (lo X) (omin (hi X) (aupper (op_arg r))) ;; Ret (Z, true)
        else
          expects (negb (op_is xid l) || optional) ;;;
          let considered := op_is xid l || considered in
          if op_is xid r then
            if bcontains v true then
              expects_debug dbg (o_le (alower (op_arg l)) (hi X)) ;;;
              Z <- mk (omax (alower (op_arg l)) (lo X)) (hi X) ;; Ret (Z, true)
            else expects optional ;;; Ret (X, true)
          else Ret (X, considered)
    | CLt v l r =>
        if op_is xid l && bcontains v true then
          expects_debug dbg (o_lt (lo X) (aupper (op_arg r))) ;;;
          p <- o_pred (aupper (op_arg r)) ;;
          Z <- mk (lo X) (omin (hi X) p) ;; Ret (Z, true)
        else
          expects (negb (op_is xid l) || optional) ;;;
          let considered := op_is xid l || considered in
          if op_is xid r then
            if bcontains v true then
              expects_debug dbg (o_lt (alower (op_arg l)) (hi X)) ;;;
              s <- o_succ (alower (op_arg l)) ;;
              Z <- mk (omax s (lo X)) (hi X) ;; Ret (Z, true)
            else expects optional ;;; Ret (X, true)
          else Ret (X, considered)
    | CEq v l r =>
        if op_is xid l || op_is xid r then
          if bcontains v true then
            let llo := alower (op_arg l) in let lhi := aupper (op_arg l) in
            let rlo := alower (op_arg r) in let rhi := aupper (op_arg r) in
            expects_debug dbg (o_le llo rhi && o_le rlo lhi) ;;;
            Z <- mk (omax llo rlo) (omin lhi rhi) ;; Ret (Z, true)
          else expects optional ;;; Ret (X, true)
        else Ret (X, considered)
    | CNe v l r =>
        if op_is xid l || op_is xid r then
          if bcontains v true then
            let llo := alower (op_arg l) in let lhi := aupper (op_arg l) in
            let rlo := alower (op_arg r) in let rhi := aupper (op_arg r) in
            expects_debug dbg (negb (o_eq llo rhi) || negb (o_eq lhi rlo)) ;;;
            if o_disc O then
              if op_is xid l && negb (o_eq llo lhi) && o_eq rlo rhi && o_eq llo rlo then
                s <- o_succ llo ;; Z <- mk s lhi ;; Ret (Z, true)
              else if op_is xid l && negb (o_eq llo lhi) && o_eq rlo rhi && o_eq lhi rlo then
                p <- o_pred lhi ;; Z <- mk llo p ;; Ret (Z, true)
              else if op_is xid r && negb (o_eq rlo rhi) && o_eq llo lhi && o_eq rlo llo then
                s <- o_succ rlo ;; Z <- mk s rhi ;; Ret (Z, true)
              else if op_is xid r && negb (o_eq rlo rhi) && o_eq llo lhi && o_eq rhi llo then
                p <- o_pred rhi ;; Z <- mk rlo p ;; Ret (Z, true)
              else Ret (X, true)
            else Ret (X, true)
          else expects optional ;;; Ret (X, true)
        else Ret (X, considered)
    | CAnd v l r =>
        '(xl, considered) <- dconstrain xid X l considered optional ;;
        '(xr, considered) <- dconstrain xid X r considered optional ;;
        if bcontains v true then
          expects_debug dbg (o_le (lo xr) (hi xl) && o_le (lo xl) (hi xr)) ;;;
          Z <- mk (omax (lo xl) (lo xr)) (omin (hi xl) (hi xr)) ;; Ret (Z, considered)
        else Ret (X, considered)
    | COr v l r =>
        '(xl, considered1) <- dconstrain xid X l false true ;;
        '(xr, considered2) <- dconstrain xid X r false true ;;
        let considered := considered1 || considered2 in
        let blhs := considered1 && cpossible l in
        let brhs := considered2 && cpossible r in
        expects (bcontains v true || optional) ;;;
        if blhs && brhs then
          Z <- mk (omin (lo xl) (lo xr)) (omax (hi xl) (hi xr)) ;; Ret (Z, considered)
        else if blhs then Ret (xl, considered)
        else if brhs then Ret (xr, considered)
        else Ret (X, considered)
    end.

  (** [constrain] (interval.hpp 1500-1507).  For a plain bool or set<bool> condition the call does not compile (1484-1498);
      the model gives [FailFast].  Simplification: the conversion of the returned [constrained_interval] to an interval is a copy. *)
  Definition constrain (xid : nat) (X : ivl O) (c : cond) : outcome (ivl O) :=
    '(Z, considered) <- dconstrain xid X c false false ;;
    expects considered ;;; Ret Z.
End Cond.
Arguments operand O : clear implicits.
Arguments cond O : clear implicits.

(** [constrain] on a scalar (math.hpp 283-290). *)
Definition scalar_constrain {A : Type} (x : A) (c : bool) : outcome A := expects c ;;; Ret x.
