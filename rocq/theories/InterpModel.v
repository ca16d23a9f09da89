(** The interpolation examples of the documentation (examples/interpolate-nn.cpp, examples/interpolate-linear.cpp).

    A table is a list of points and a list of values.  gsl_ExpectsAudit is not checked in the build modes considered here. *)
From Coq Require Import Bool List Arith ZArith.
From Verif Require Import Outcome SetModel Num IntervalModel IntNum IterModel ConstrainModel AlgoModel MathModel LangModel.
Import ListNotations.

Section Interp.
  Context {N : num} (dbg : bool).
  Notation index := (int_ordty 64).

  (** ** Nearest neighbour *)
  (** std::midpoint of the standard library is a parameter. *)
  Context (mid : N -> N -> N).
  (** [index_range(n)] of the makeshift library: the indices 0, ..., n-1. *)
  Definition index_range (n : nat) : list Z := map Z.of_nat (seq 0 n).
  (** Dereferencing an interval of iterators of an index range (interval.hpp 681-690): the iterator at position i, the end
      included, has the value i.  The positions are integers; the loop is bounded by [fuel], as in IterModel.v. *)
  Fixpoint index_loop (fuel : nat) (pos e : Z) (result : ivl index) : outcome (ivl index) :=
    match fuel with
    | O => UB
    | S fuel' => if (pos <=? e)%Z then v <- int_of 64 pos ;; index_loop fuel' (pos + 1) e (iassign_value result v) else Ret result
    end.
  Definition index_deref {n : Z} (P : ivl (iter_ordty n)) : outcome (ivl int64) :=
    index_loop (S (S (Z.to_nat n))) (idx (lo P)) (idx (hi P)) (@ivl_default int64).

  (** The predicate of interpolate-nn.cpp 35-38, 56-59. *)
  Definition half_pred_scalar (xs : list N) (x : N) (i : Z) : outcome bool :=
    a <- elem xs i ;; b <- elem xs (i + 1) ;; Ret (o_lt (mid a b) x).
  Definition half_pred (xs : list N) (x : operand N) (i : Z) : outcome (cond N) :=
    a <- elem xs i ;; b <- elem xs (i + 1) ;; c_lt dbg (OpVal (Sc (mid a b))) x.
  (** interpolate-nn.cpp 25-43, and 46-64 for a number. *)
  Definition nearest_scalar (xs ys : list N) (x : N) : outcome N :=
    expects (2 <=? length xs)%nat ;;;
    expects_debug dbg (length xs =? length ys)%nat ;;;
    k <- std_partition_point (half_pred_scalar xs x) (index_range (length xs - 1)%nat) ;;
    i <- int_of 64 (Z.of_nat k) ;;
    at_index ys i.
  (** interpolate-nn.cpp 46-64 for an interval. *)
  Definition nearest (xs ys : list N) (X : ivl N) : outcome (ivl N) :=
    expects (2 <=? length xs)%nat ;;;
    expects_debug dbg (length xs =? length ys)%nat ;;;
    it <- partition_point_set (half_pred xs (OpId 0 X)) (index_range (length xs - 1)%nat) ;;
    i <- index_deref it ;;
    at_numbers (map Sc ys) i.

  (** ** Linear interpolation *)
  (** The expression [y0 + (x - x0)/(x1 - x0)*(y1 - y0)] (interpolate-linear.cpp 68, 117); variable 0 is [x]. *)
  Definition segment (x0 x1 y0 y1 : N) : expr N :=
    EBin BAdd (ELit y0) (EBin BMul (EBin BDiv (EBin BSub (EVar 0) (ELit x0)) (EBin BSub (ELit x1) (ELit x0))) (EBin BSub (ELit y1) (ELit y0))).
  (** interpolate-linear.cpp 26-72. *)
  Definition linear_scalar (xs ys : list N) (x : N) : outcome N :=
    let n := Z.of_nat (length xs) in
    expects (2 <=? n)%Z ;;;
    expects_debug dbg (length ys =? length xs)%nat ;;;
    pos <- lower_bound_scalar xs x ;;
    let i := idx pos in
    if (i =? 0)%Z then elem ys 0
    else if (i =? n)%Z then elem ys (n - 1)
    else
      x0 <- elem xs (i - 1) ;; x1 <- elem xs i ;; y0 <- elem ys (i - 1) ;; y1 <- elem ys i ;;
      seval None dbg [x] (segment x0 x1 y0 y1).
  (** The body of the loop of interpolate-linear.cpp 112-117 for an interval. *)
  Definition linear_step (xs ys : list N) (X : ivl N) (result : ivl N) (j : index) : outcome (ivl N) :=
    x0 <- elem xs (val j - 1) ;; x1 <- elem xs (val j) ;; y0 <- elem ys (val j - 1) ;; y1 <- elem ys (val j) ;;
    xc <- part_constrain dbg 0 X (lower_pred dbg (OpId 0 X)) xs (Sc j) ;;
    y <- ieval None dbg [Iv xc] (segment x0 x1 y0 y1) ;;
    free_assign_partial result (as_ivl y).
  Fixpoint linear_loop (xs ys : list N) (X : ivl N) (result : ivl N) (l : list index) : outcome (ivl N) :=
    match l with [] => Ret result | j :: l => r <- linear_step xs ys X result j ;; linear_loop xs ys X r l end.
  (** interpolate-linear.cpp 74-122 for an interval.  Simplification: the enumeration is made before the loop body is run. *)
  Definition linear (xs ys : list N) (X : ivl N) : outcome (ivl N) :=
    let n := Z.of_nat (length xs) in
    expects (2 <=? n)%Z ;;;
    expects_debug dbg (length ys =? length xs)%nat ;;;
    pos <- lower_bound dbg xs (OpId 0 X) ;;
    begin <- iter_of n 0 ;;
    i <- it_diff (w := 64) dbg (Iv pos) (Sc begin) ;;
    zero <- int_of 64 0 ;;
    n' <- int_of 64 n ;;
    let result := @ivl_default N in
    below <- c_eq dbg (OpId 0 i) (@OpVal index (Sc zero)) ;;
    result <- (if cpossible below then y <- elem ys 0 ;; free_assign_partial result (ivl_of y) else Ret result) ;;
    above <- c_eq dbg (OpId 0 i) (@OpVal index (Sc n')) ;;
    result <- (if cpossible above then y <- elem ys (n - 1) ;; free_assign_partial result (ivl_of y) else Ret result) ;;
    nbelow <- c_not dbg below ;;
    nabove <- c_not dbg above ;;
    let c := c_and nbelow nabove in
    if cpossible c then
      ic <- constrain dbg 0 i c ;;
      match enumerate_interval (S (length xs)) ic with
      | Some o => l <- o ;; linear_loop xs ys X result l
      | None => UB
      end
    else Ret result.
End Interp.
