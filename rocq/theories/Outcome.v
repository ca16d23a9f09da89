(** Outcomes of C++ evaluations.

    Models the ways a call into the library can end (no single source line; the macros come from gsl-lite):
    - [Ret a]      normal return;
    - [FailFast]   violated [gsl_Expects]/[gsl_Assert]/[gsl_FailFast] (terminates or throws [gsl::fail_fast]);
    - [Trap]       the deliberate division by a volatile zero (interval.hpp 346-351, 401-406);
    - [Throw]      [gsl::narrowing_error] or a standard-library exception;
    - [UB]         undefined behaviour of the C++ abstract machine. *)

Inductive outcome (A : Type) : Type :=
| Ret (a : A)
| FailFast
| Trap
| Throw
| UB.

Arguments Ret {A} a.
Arguments FailFast {A}.
Arguments Trap {A}.
Arguments Throw {A}.
Arguments UB {A}.

(** Sequencing: an abnormal outcome ends the evaluation. *)
Definition bind {A B : Type} (x : outcome A) (f : A -> outcome B) : outcome B :=
  match x with
  | Ret a => f a
  | FailFast => FailFast
  | Trap => Trap
  | Throw => Throw
  | UB => UB
  end.

Notation "x <- e ;; k" := (bind e (fun x => k))
  (at level 61, e at next level, right associativity).
Notation "' p <- e ;; k" := (bind e (fun x => match x with p => k end))
  (at level 61, p pattern, e at next level, right associativity).
Notation "e ;;; k" := (bind e (fun _ => k))
  (at level 61, right associativity).

(** [gsl_Expects(b)], [gsl_Assert(b)]: checked in every build mode. *)
Definition expects (b : bool) : outcome unit :=
  if b then Ret tt else FailFast.

(** [gsl_ExpectsDebug(b)], [gsl_AssertDebug(b)]: checked only in debug builds ([dbg = true]). *)
Definition expects_debug (dbg b : bool) : outcome unit :=
  if dbg then expects b else Ret tt.
