(** Piecewise programs: the loop of examples/interpolate-linear.cpp 87-90 and 110-118 over all positions and with an arbitrary body,

      auto [preds, pos] = lower_bound(xs, x);                  // or upper_bound
      auto result = T{ };
      for (auto j : enumerate(pos - ranges::begin(xs)))
      {
          auto xc = constrain(x, preds[j]);
          ...                                                  // any statements; they assign_partial(result, ...)
      }

    The body is a program of LangModel.v for each index [j]: the elements of tables that it reads at [j] are literals in it.  Its variable 0 is [xc],
    the others are further parameters of the function.  Simplification, as in InterpModel.v: the enumeration is made before the body is run. *)
From Coq Require Import Bool List ZArith.
From Verif Require Import Outcome SetModel Num IntervalModel IntNum IterModel ConstrainModel AlgoModel MathModel LangModel.
Import ListNotations.

Inductive search := SLower | SUpper.

Section Piece.
  Context {N : num} (M : option (math N)) (dbg : bool) (s : search).
  Notation index := (int_ordty 64).

  (** The program for a number (algorithm.hpp 29-47 and 126-169 for scalars): there is one position [pos], and the difference
      [pos - ranges::begin(xs)] is a number; the enumeration of a number visits that number. *)
  Definition piece_scalar (xs : list N) (body : Z -> prog N) (x : N) (ys : list N) : outcome (option N) :=
    pos <- (match s with SLower => lower_bound_scalar xs x | SUpper => upper_bound_scalar xs x end) ;;
    begin <- iter_of (Z.of_nat (length xs)) 0 ;;
    j <- iter_diff (w := 64) pos begin ;;
    xc <- part_constrain_scalar dbg x (match s with SLower => lower_pred_scalar x | SUpper => upper_pred_scalar x end) xs (Sc j) ;;
    srun M dbg (xc :: ys) [] (body (val j)) None.

  (** [constrain(x, preds[j])] (interpolate-linear.cpp 116; algorithm.hpp 56-82) *)
  Definition piece_constrain (xs : list N) (X : ivl N) (j : index) : outcome (ivl N) :=
    part_constrain dbg 0 X (match s with SLower => lower_pred dbg (OpId 0 X) | SUpper => upper_pred dbg (OpId 0 X) end) xs (Sc j).
  (** The loop (interpolate-linear.cpp 110-118). *)
  Fixpoint piece_loop (xs : list N) (body : Z -> prog N) (X : ivl N) (Ys : list (ivl N)) (result : ivl N) (l : list index) : outcome (ivl N) :=
    match l with
    | [] => Ret result
    | j :: l =>
        xc <- piece_constrain xs X j ;;
        r <- LangModel.irun M dbg (map Iv (xc :: Ys)) [] (body (val j)) result ;;
        piece_loop xs body X Ys r l
    end.
  (** The index interval [pos - ranges::begin(xs)] (interpolate-linear.cpp 87-88). *)
  Definition piece_index (xs : list N) (X : ivl N) : outcome (ivl index) :=
    pos <- (match s with SLower => lower_bound dbg xs (OpId 0 X) | SUpper => upper_bound dbg xs (OpId 0 X) end) ;;
    begin <- iter_of (Z.of_nat (length xs)) 0 ;;
    it_diff (w := 64) dbg (Iv pos) (Sc begin).
  (** The whole function. *)
  Definition piece (xs : list N) (body : Z -> prog N) (X : ivl N) (Ys : list (ivl N)) : outcome (ivl N) :=
    i <- piece_index xs X ;;
    match enumerate_interval (S (S (length xs))) i with
    | Some o => l <- o ;; piece_loop xs body X Ys ivl_default l
    | None => UB
    end.
End Piece.
