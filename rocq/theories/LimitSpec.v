(** Vocabulary for the subdivision of inputs in exact real arithmetic (C78). *)
From Coq Require Import Reals Bool List.
From Verif Require Import Outcome Num XReal RealNum RealMath IntervalModel MathModel LangModel.
Import ListNotations.

(** The bounds are real numbers; they are at most [w] apart. *)
Definition bounded (x : arg real_num) : Prop := exists l u, alower x = XFin l /\ aupper x = XFin u.
Definition narrow (w : R) (x : arg real_num) : Prop := exists l u, alower x = XFin l /\ aupper x = XFin u /\ (u - l <= w)%R.
(** No rounding functions and no [if_else]. *)
Definition continuous_fun (u : unop) : bool := match u with UFloor | UCeil | URound => false | _ => true end.
Fixpoint continuous (e : expr real_num) : bool :=
  match e with
  | EVar _ | ELit _ => true
  | EUn u e => continuous_fun u && continuous e
  | EBin _ e f => continuous e && continuous f
  | EIf _ _ _ => false
  end.
(** The interval evaluation meets no infinity. *)
Fixpoint ebounded (dbg : bool) (V : list (arg real_num)) (e : expr real_num) : Prop :=
  (forall a, ieval (Some real_math) dbg V e = Ret a -> bounded a) /\
  match e with
  | EVar _ | ELit _ => True
  | EUn _ e => ebounded dbg V e
  | EBin _ e f | EIf _ e f => ebounded dbg V e /\ ebounded dbg V f
  end.
