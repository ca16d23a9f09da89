(** The example programs of the documentation as client programs (LangModel.v). *)
From Coq Require Import Bool List.
From Verif Require Import Outcome SetModel Num IntervalModel ConstrainModel CondSpec MathModel LangModel.
Import ListNotations.

Section Max.
  Context {N : num}.
  (** Parameters: variable 0 is [a], variable 1 is [b]. *)
  Definition va : expr N := EVar 0.
  Definition vb : expr N := EVar 1.
  (** README.md 437-452.  There the second branch is taken if [possibly(!c)], in [PIf] if [possibly_not(c)] (set.hpp 386-390). *)
  Definition max2 : prog N := PIf (QRel RLt va vb) (PAssign vb) (PAssign va).
  (** README.md 44-62. *)
  Definition max3 : prog N :=
    PIf (QRel RLt va vb) (PConstrain 1 (KVar 0) (PAssign (EVar 2))) (PConstrain 0 (KVar 0) (PAssign (EVar 2))).
  (** examples/simple2.cpp 12-26. *)
  Definition imax0 : prog N := PIf (QRel RGe va vb) (PAssign va) (PAssign vb).
  (** examples/simple2.cpp 27-43. *)
  Definition imax_example : prog N :=
    PIf (QRel RGe va vb) (PConstrain 0 (KVar 0) (PAssign (EVar 2))) (PConstrain 1 (KVar 0) (PAssign (EVar 2))).
  (** README.md 390-404: [max] with plain assignments, which overwrite the result. *)
  Definition readme_max (dbg : bool) (A B : ivl N) : outcome (ivl N) :=
    let x := ivl_default in
    c <- c_lt dbg (OpId 0 A) (OpId 1 B) ;;
    let x := if cpossible c then B else x in
    c' <- c_not dbg c ;;
    Ret (if cpossible c' then A else x).
  (** Maximum of a list of numbers or intervals, computed by a binary maximum. *)
  Fixpoint fold_max {A : Type} (f : A -> A -> outcome A) (x : A) (l : list A) : outcome A :=
    match l with [] => Ret x | y :: l => z <- f x y ;; fold_max f z l end.
End Max.

Section Simple.
  Context {N : num} (two : N).
  (** examples/simple1.cpp 12-21: [square(x) - 2*x] and [square(x - 1) - 1]. *)
  Definition f1 : expr N := EBin BSub (EUn USquare (EVar 0)) (EBin BMul (ELit two) (EVar 0)).
  Definition f2 : expr N := EBin BSub (EUn USquare (EBin BSub (EVar 0) (ELit n_one))) (ELit n_one).
  (** examples/simple3.cpp 14-30. *)
  Definition simple3_s : prog N :=
    PIf (QRel RGe (EVar 0) (ELit n_zero)) (PConstrain 0 (KVar 0) (PAssign (EUn USqrt (EVar 1)))) (PAssign (ELit n_zero)).
End Simple.
