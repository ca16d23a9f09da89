(** Overloads for plain numbers: the value types of the library, and counterexamples (C74). *)
From Coq Require Import Bool List ZArith NArith.
From Verif Require Import Outcome SetModel Spec SetProofs Num NumLaws IntervalModel IvlSpec IvlProofs IntNum FloatNum ValueTypes IvlWrap ScalarModel ScalarProofs.
Import ListNotations.

Lemma scalar_sgn N : value_type N -> forall dbg (u : N), ok u ->
  exists t, ssgn dbg u = Ret t /\ has_sign u t /\ forall X s, el X u -> isgn dbg X = Ret s -> member s t.
Proof.
  intros H dbg u Hu. pose proof (value_type_laws N H) as HN. destruct (ssgn_exact HN dbg u Hu) as (t & Ht & Hs).
  exists t. split; [exact Ht|]. split; [exact Hs|]. intros X s HX Hsg. exact (ssgn_in HN dbg u X s t HX Ht Hsg).
Qed.
Lemma scalar_sgn_nan N : value_type N -> forall u : N, nan u ->
  ssgn true u = FailFast /\ ssgn false u = Ret zero_sign /\ forall dbg, exists s, isgn dbg (ivl_of u) = Ret s /\ forall t, ~ member s t.
Proof.
  intros H u Hu. destruct (ssgn_nan (value_type_laws N H) u Hu) as (A & B & C). split; [exact A|]. split; [exact B|].
  intros dbg. exists set_empty. split; [apply C|]. intros t (i & _ & D). discriminate D.
Qed.
Lemma sign_times_ivl N : value_type N -> forall dbg (t : sign) (X : ivl N), proper X ->
  forall F, F = sign_mul_ivl dbg t X \/ F = ivl_mul_sign dbg X t -> one_sign_ok F t X.
Proof. intros H dbg t X HX F HF. destruct (sign_mul_ivl_hull (value_type_laws N H) dbg t X HX) as [A B]. destruct HF as [-> | ->]; assumption. Qed.

Lemma sign_product_infinite : exists (s : sset) (X Z : ivl float64) (t : sign) (u p : float64), el X u /\ member s t
  /\ signs_mul_ivl true s X = Ret Z /\ scalar_mul_sign u t = Ret p /\ ~ el Z p.
Proof.
  exists (sset_of zero_sign), (Ivl n_bot n_top), (Ivl n_zero n_zero), zero_sign, n_top, n_nan.
  split; [split; vm_compute; reflexivity|]. split; [apply smember_iff; reflexivity|]. split; [vm_compute; reflexivity|]. split; [vm_compute; reflexivity|].
  intros [A _]. vm_compute in A. discriminate.
Qed.
Lemma scalar_intersect_other : exists (X Y Z : ivl int32) (x y : int32), el X x /\ el Y y /\ intersect X [Y] = Ret Z /\ ~ el Z (scalar_intersect x [y]).
Proof.
  assert (W : exists Z, intersect (Ivl (i32 0) (i32 2)) [Ivl (i32 1) (i32 3)] = Ret Z /\ negb (o_le (lo Z) (i32 0)) = true) by (apply ret_witness; vm_compute; reflexivity).
  destruct W as (Z & HZ & E). exists (Ivl (i32 0) (i32 2)), (Ivl (i32 1) (i32 3)), Z, (i32 0), (i32 3).
  split; [split; reflexivity|]. split; [split; reflexivity|]. split; [exact HZ|]. unfold scalar_intersect. intros [A _]. rewrite A in E. discriminate.
Qed.
