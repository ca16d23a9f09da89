(** Operands of different value types: what does not hold. *)
From Coq Require Import ZArith Bool Lia.
From Verif Require Import Outcome SetModel Spec SetProofs Num NumLaws IntervalModel IvlSpec IvlProofs ArithProofs IntNum IntProofs FloatNum FloatProofs ValueTypes MixedModel MixedArithModel MixedArithSpec MixedArithProofs ConvProofs IvlWrap MathModel AlgoProofs4.

Definition same_double (a : float64) : float64 := a.
Lemma converts_int_double : converts int32 float64 int_to_double.
Proof. apply (cv_int_float 32). discriminate. Qed.

(** 1. / interval{ -2, 0 } = [-0.5, inf], but 1. / -1 = -1. *)
Lemma mixed_div_end : exists (Y : ivl int32) (Z : ivl float64) (v : int32) (q : float64),
  proper Y /\ el Y v /\ ~ is_zero v /\ mixed_div same_double int_to_double true (Sc (f64 1 0)) (Iv Y) = Ret Z /\ proper Z
  /\ n_div (f64 1 0) (int_to_double v) = Ret q /\ ~ el Z q.
Proof.
  set (Y := Ivl (i32 (-2)) (i32 0) : ivl int32).
  destruct (ret_witness (mixed_div same_double int_to_double true (Sc (f64 1 0)) (Iv Y)) (fun Z => negb (contains Z (f64 (-1) 0)) && contains Z (f64 0 0))) as (Z & HZ & Hc); [vm_compute; reflexivity|].
  destruct (ret_witness (@n_div float64 (f64 1 0) (int_to_double (i32 (-1)))) (fun q => o_eq q (f64 (-1) 0))) as (q & Hq & Eq); [vm_compute; reflexivity|].
  pose proof (value_type_laws _ vt_float64) as HN. pose proof (nl_ord _ HN) as HO. apply andb_true_iff in Hc as [Hc H0]. apply contains_iff in H0.
  exists Y, Z, (i32 (-1)), q. split; [reflexivity|]. split; [split; reflexivity|]. split; [discriminate|]. split; [exact HZ|].
  split. { apply (proper_iff HO Z). eauto. } split; [exact Hq|].
  intros [H1 H2]. apply negb_true_iff in Hc. unfold contains in Hc. clear - HO H1 H2 Hc Eq. set (m := f64 (-1) 0) in *. clearbody m. apply andb_false_iff in Hc. destruct Hc; ord HO.
Qed.
(** interval{ 0.25, 0.75 } == interval{ 0, 1 } may be true, but no integer lies between 0.25 and 0.75. *)
Lemma mixed_eq_wide : exists (X : ivl float64) (Y : ivl int32) s, proper X /\ proper Y /\ mixed_eq same_double int_to_double true (Iv X) (Iv Y) = Ret s
  /\ member s (true : bool) /\ ~ truths (fun u v => o_eq (same_double u) (int_to_double v)) (Iv X) (Iv Y) true.
Proof.
  set (X := Ivl (f64 1 (-2)) (f64 3 (-2)) : ivl float64). set (Y := Ivl (i32 0) (i32 1) : ivl int32).
  pose proof (value_type_laws _ vt_float64) as HN. pose proof (nl_ord _ HN) as HO.
  destruct (ret_witness (mixed_eq same_double int_to_double true (Iv X) (Iv Y)) (fun s => bcontains s true)) as (s & Hs & Ht); [vm_compute; reflexivity|].
  exists X, Y, s. split; [reflexivity|]. split; [reflexivity|]. split; [exact Hs|]. split; [now apply bmember_iff|].
  intros (u & v & [U1 U2] & [V1 V2] & H). cbn in V1, V2. apply Z.leb_le in V1, V2.
  assert (K : v = i32 0 \/ v = i32 1).
  { change (val (i32 0)) with 0%Z in V1. change (val (i32 1)) with 1%Z in V2. assert (E : (val v = 0 \/ val v = 1)%Z) by (clear - V1 V2; lia).
    destruct E as [E|E]; [left|right]; apply val_inj; exact E. }
  cbn [alower aupper lo hi X Y] in U1, U2. unfold same_double in H. destruct K as [-> | ->].
  - assert (E : o_lt (int_to_double (i32 0)) (f64 1 (-2)) = true) by (vm_compute; reflexivity). set (a := int_to_double _) in *. set (b := f64 1 (-2)) in *. clearbody a b. clear - HO U1 H E. ord HO.
  - assert (E : o_lt (f64 3 (-2)) (int_to_double (i32 1)) = true) by (vm_compute; reflexivity). set (a := int_to_double _) in *. set (b := f64 3 (-2)) in *. clearbody a b. clear - HO U2 H E. ord HO.
Qed.
(** interval<int>(interval<long>{ 0, 2^32 }) = [0, 0], although 5 is converted to 5. *)
Lemma convert_wraps : exists (X : ivl int64) (Z : ivl int32) (v : int64), proper X /\ el X v
  /\ iconvert (fun a : int64 => Ret (narrow_cast_value (w := 64) (w' := 32) ltac:(discriminate) a : int32)) X = Ret Z
  /\ ~ el Z (narrow_cast_value (w := 64) (w' := 32) ltac:(discriminate) v).
Proof.
  exists (Ivl (i64 0) (i64 (2 ^ 32))).
  match goal with |- exists Z v, _ /\ _ /\ ?c = Ret Z /\ _ => destruct (ret_witness c (fun Z => negb (contains Z (i32 5)))) as (Z & HZ & Hc); [vm_compute; reflexivity|] end.
  exists Z, (i64 5). split; [reflexivity|]. split; [split; reflexivity|]. split; [exact HZ|]. intros H. apply negb_true_iff in Hc.
  replace (narrow_cast_value _ (i64 5)) with (i32 5) in H by (apply val_inj; vm_compute; reflexivity). apply contains_iff in H. rewrite H in Hc. discriminate.
Qed.
