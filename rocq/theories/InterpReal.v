(** Nearest-neighbour interpolation in exact arithmetic selects the value of a nearest point. *)
From Coq Require Import Reals Bool List Arith ZArith Lia Lra.
From Verif Require Import Outcome Num NumLaws IntervalModel IvlSpec IntNum XReal RealNum TrigProofs AlgoModel AlgoSpec InterpModel InterpSpec InterpProofs.
Import ListNotations.
Open Scope R_scope.

Definition real_mid (a b : real_num) : real_num :=
  match a, b with XFin r, XFin s => XFin ((r + s) / 2) | _, _ => XNan end.
Definition points (l : list R) : list real_num := map (fun r => XFin r : real_num) l.

Lemma points_nth l i (v : real_num) : nth_error (points l) i = Some v -> exists r, v = XFin r /\ nth_error l i = Some r.
Proof. unfold points. rewrite nth_error_map. destruct (nth_error l i) as [r|]; [|discriminate]. cbn. intros E. injection E as <-. eauto. Qed.
Lemma points_nth' l i r : nth_error l i = Some r -> nth_error (points l) i = Some (XFin r : real_num).
Proof. unfold points. rewrite nth_error_map. now intros ->. Qed.
Lemma points_sorted l : (forall i j a b, (i <= j)%nat -> nth_error l i = Some a -> nth_error l j = Some b -> a <= b) -> sorted (points l).
Proof. intros H i j v w L Ei Ej. apply points_nth in Ei as (a & -> & Ea). apply points_nth in Ej as (b & -> & Eb). apply real_le. exact (H i j a b L Ea Eb). Qed.
Lemma points_between l : sorted (points l) -> between real_mid (points l).
Proof.
  intros S i v w Ei Ej. assert (L : o_le v w = true) by (apply (S i (Datatypes.S i)); auto). apply points_nth in Ei as (a & -> & _). apply points_nth in Ej as (b & -> & _).
  apply real_le in L. cbn [real_mid]. split; apply real_le; lra.
Qed.

Lemma nearest_is_nearest dbg (xs ys : list R) x : sorted (points xs) -> (2 <= length xs)%nat -> length xs = length ys -> (Z.of_nat (length xs) <= int_max 64)%Z ->
  exists k p y, nth_error xs k = Some p /\ nth_error ys k = Some y /\ nearest_scalar dbg real_mid (points xs) (points ys) (XFin x : real_num) = Ret (XFin y : real_num)
    /\ forall j q, nth_error xs j = Some q -> Rabs (x - p) <= Rabs (x - q).
Proof.
  intros S H2 HL Hm.
  destruct (nearest_scalar_ok real_laws dbg real_mid (points xs) (points ys) S (points_between xs S)) with (x := XFin x : real_num) as (k & w & [Kl K] & Ey & E);
    [unfold points; now rewrite map_length| unfold points; now rewrite !map_length|unfold points; now rewrite map_length|].
  rewrite halves_length in Kl. unfold points in Kl. rewrite map_length in Kl.
  apply points_nth in Ey as (y & -> & Ey). destruct (nth_error xs k) as [p|] eqn:Ep; [|apply nth_error_None in Ep; lia].
  exists k, p, y. split; [exact Ep|]. split; [exact Ey|]. split; [exact E|]. intros j q Eq.
  assert (SR : forall i j a b, (i <= j)%nat -> nth_error xs i = Some a -> nth_error xs j = Some b -> a <= b).
  { intros i i' a b L Ha Hb. apply real_le. apply (S i i'); auto using points_nth'. }
  destruct (lt_eq_lt_dec j k) as [[L| ->]|L].
  - destruct k as [|k]; [lia|]. destruct (nth_error xs k) as [m|] eqn:Em; [|apply nth_error_None in Em; lia].
    destruct (K k (real_mid (XFin m) (XFin p))) as [K1 _]; [apply halves_nth; exists (XFin m), (XFin p); auto using points_nth'|].
    specialize (K1 (Nat.lt_succ_diag_r k)). cbn [real_mid] in K1. apply real_lt in K1.
    assert (q <= m) by (apply (SR j k); auto; lia). assert (q <= p) by (apply (SR j (Datatypes.S k)); auto; lia). unfold Rabs. do 2 destruct Rcase_abs; lra.
  - rewrite Ep in Eq. injection Eq as ->. lra.
  - destruct (nth_error xs (Datatypes.S k)) as [m|] eqn:Em; [|apply nth_error_None in Em; assert (j < length xs)%nat by (apply nth_error_Some; congruence); lia].
    destruct (K k (real_mid (XFin p) (XFin m))) as [_ K1]; [apply halves_nth; exists (XFin p), (XFin m); auto using points_nth'|].
    specialize (K1 (Nat.le_refl k)). cbn [real_mid] in K1. rewrite real_lt in K1.
    assert (m <= q) by (apply (SR (Datatypes.S k) j); auto; lia). assert (p <= q) by (apply (SR k j); auto; lia). unfold Rabs. do 2 destruct Rcase_abs; lra.
Qed.
