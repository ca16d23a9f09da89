(** Numerical bounds of pi and of the logarithm of 2, by Taylor polynomials evaluated with rational numbers. *)
From Coq Require Import Reals ZArith QArith Qreals Lra Lia.
Open Scope R_scope.

(** cos *)
Fixpoint cosQ (x2 : Q) (t : Q) (i : Z) (n : nat) : Q :=
  match n with
  | O => t
  | S n => Qplus t (cosQ x2 (Qred (Qopp (Qdiv (Qmult t x2) (inject_Z ((i + 1) * (i + 2)))))) (i + 2) n)
  end.
Lemma Q2R_inject z : Q2R (inject_Z z) = IZR z.
Proof. unfold Q2R, inject_Z. cbn. field. Qed.
Lemma cosQ_sum a x m : Q2R a = x -> forall n t i, Q2R t = cos_term x m -> i = Z.of_nat (2 * m) ->
  Q2R (cosQ (Qmult a a) t i n) = sum_f_R0 (fun k => cos_term x (m + k)) n.
Proof.
  intros Ea n. revert m. induction n as [|n IH]; intros m t i Et Ei.
  - cbn. now rewrite Nat.add_0_r.
  - rewrite decomp_sum by lia. cbn [cosQ pred]. rewrite Q2R_plus, Et, Nat.add_0_r. f_equal.
    rewrite (IH (S m)).
    + apply sum_eq. intros k _. f_equal. lia.
    + rewrite (Qeq_eqR _ _ (Qred_correct _)), Q2R_opp, Q2R_div, !Q2R_mult, Et, Q2R_inject.
      2:{ unfold Qeq, inject_Z. cbn. lia. }
      unfold cos_term. rewrite Ea. replace (2 * S m)%nat with (S (S (2 * m))) by lia. rewrite !fact_simpl, !mult_INR. cbn [pow].
      replace (IZR ((i + 1) * (i + 2))) with (INR (S (2 * m)) * INR (S (S (2 * m)))).
      * field. repeat split; try apply INR_fact_neq_0; apply not_0_INR; lia.
      * rewrite mult_IZR, !plus_IZR, Ei, <- INR_IZR_INZ, !S_INR. ring.
    + lia.
Qed.
Definition cos_poly (a : Q) (n : nat) : Q := cosQ (Qmult a a) 1 0 n.
Lemma cos_poly_approx a n : Q2R (cos_poly a n) = cos_approx (Q2R a) n.
Proof.
  unfold cos_poly, cos_approx. rewrite (cosQ_sum a (Q2R a) 0 eq_refl).
  - apply sum_eq. intros. reflexivity.
  - unfold cos_term. cbn. unfold Q2R. cbn. field.
  - reflexivity.
Qed.
Lemma below_half_pi a n : (0 <= a)%Q -> (a <= 2)%Q -> (0 < cos_poly a (2 * n + 1))%Q -> Q2R a < PI / 2.
Proof.
  intros H0 H2 H. apply Qle_Rle in H0, H2. apply Qlt_Rlt in H. replace (Q2R 0) with 0 in * by (unfold Q2R; cbn; field). replace (Q2R 2) with 2 in * by (unfold Q2R; cbn; field).
  rewrite cos_poly_approx in H. destruct (pre_cos_bound (Q2R a) n ltac:(lra) H2) as [K _].
  destruct (Rlt_or_le (Q2R a) (PI / 2)) as [|C]; [assumption|]. pose proof PI2_1. pose proof (cos_le_0 (Q2R a) C ltac:(lra)). lra.
Qed.
Lemma above_half_pi a n : (0 <= a)%Q -> (a <= 2)%Q -> (cos_poly a (2 * (n + 1)) < 0)%Q -> PI / 2 < Q2R a.
Proof.
  intros H0 H2 H. apply Qle_Rle in H0, H2. apply Qlt_Rlt in H. replace (Q2R 0) with 0 in * by (unfold Q2R; cbn; field). replace (Q2R 2) with 2 in * by (unfold Q2R; cbn; field).
  rewrite cos_poly_approx in H. destruct (pre_cos_bound (Q2R a) n ltac:(lra) H2) as [_ K].
  destruct (Rlt_or_le (PI / 2) (Q2R a)) as [|C]; [assumption|]. pose proof PI_RGT_0. pose proof (cos_ge_0 (Q2R a) ltac:(lra) C). lra.
Qed.
(** pi lies between the number 884279719003555 / 2^48, which is the double nearest to it, and the middle between that and the
    next one. *)
Lemma pi_above : IZR 7074237752028440 / IZR (2 ^ 51) < PI.
Proof.
  pose proof (below_half_pi (7074237752028440 # 4503599627370496) 6 ltac:(discriminate) ltac:(discriminate) ltac:(vm_compute; reflexivity)) as H.
  unfold Q2R in H. cbn [Qnum Qden] in H. change (IZR (2 ^ 51)) with 2251799813685248. lra.
Qed.
Lemma pi_above_gap : (IZR 7074237752028440 + / 8) / IZR (2 ^ 51) < PI.
Proof.
  pose proof (below_half_pi (56593902016227521 # 36028797018963968) 6 ltac:(discriminate) ltac:(discriminate) ltac:(vm_compute; reflexivity)) as H.
  unfold Q2R in H. cbn [Qnum Qden] in H. change (IZR (2 ^ 51)) with 2251799813685248. lra.
Qed.
Lemma pi_below : PI < (IZR 7074237752028440 + / 2) / IZR (2 ^ 51).
Proof.
  pose proof (above_half_pi (14148475504056881 # 9007199254740992) 6 ltac:(discriminate) ltac:(discriminate) ltac:(vm_compute; reflexivity)) as H.
  unfold Q2R in H. cbn [Qnum Qden] in H. change (IZR (2 ^ 51)) with 2251799813685248. lra.
Qed.
Lemma pi_bounds : 3.14159 < PI < 3.1416.
Proof. pose proof pi_above. pose proof pi_below. change (IZR (2 ^ 51)) with 2251799813685248 in *. lra. Qed.

(** exp *)
Fixpoint exp_sum (x : R) (n : nat) : R := match n with O => 1 | S n => exp_sum x n + x ^ S n / INR (fact (S n)) end.
Lemma exp_sum_0 n : exp_sum 0 n = 1.
Proof. induction n as [|n IH]; [reflexivity|]. cbn [exp_sum]. rewrite IH, pow_ne_zero by discriminate. unfold Rdiv. ring. Qed.
Lemma term_derivable n x : derivable_pt_lim (fun x => x ^ S n / INR (fact (S n))) x (x ^ n / INR (fact n)).
Proof.
  replace (x ^ n / INR (fact n)) with (INR (S n) * x ^ pred (S n) * / INR (fact (S n))).
  - apply (derivable_pt_lim_scal_right (fun x => x ^ S n)). apply derivable_pt_lim_pow.
  - cbn [pred]. rewrite (fact_simpl n), mult_INR. field. split; [apply INR_fact_neq_0|apply not_0_INR; lia].
Qed.
Lemma exp_sum_derivable n x : derivable_pt_lim (fun x => exp_sum x (S n)) x (exp_sum x n).
Proof.
  induction n as [|n IH].
  - change (exp_sum x 0) with 1. replace 1 with (0 + x ^ 0 / INR (fact 0)) by (cbn; field).
    apply (derivable_pt_lim_plus (fun _ => 1) (fun x => x ^ 1 / INR (fact 1))); [apply derivable_pt_lim_const|apply term_derivable].
  - change (exp_sum x (S n)) with (exp_sum x n + x ^ S n / INR (fact (S n))).
    apply (derivable_pt_lim_plus (fun x => exp_sum x (S n)) (fun x => x ^ S (S n) / INR (fact (S (S n))))); [exact IH|apply term_derivable].
Qed.
Lemma increasing_from_0 (f f' : R -> R) t : 0 <= t -> (forall x, 0 <= x <= t -> derivable_pt_lim f x (f' x)) -> (forall x, 0 <= x <= t -> 0 <= f' x) -> f 0 <= f t.
Proof.
  intros [H|<-] D P; [|lra]. destruct (MVT_cor2 f f' 0 t H D) as (c & E & C). pose proof (P c ltac:(lra)). nra.
Qed.
Lemma exp_above n x : 0 <= x -> exp_sum x n <= exp x.
Proof.
  revert x. induction n as [|n IH]; intros x H.
  - cbn. rewrite <- exp_0. destruct H as [H|<-]; [left; now apply exp_increasing|lra].
  - pose proof (increasing_from_0 (fun x => exp x - exp_sum x (S n)) (fun x => exp x - exp_sum x n) x H) as K.
    cbv beta in K. rewrite exp_sum_0, exp_0 in K. assert (1 - 1 <= exp x - exp_sum x (S n)); [|lra]. apply K.
    + intros y _. apply (derivable_pt_lim_minus exp (fun x => exp_sum x (S n))); [apply derivable_pt_lim_exp|apply exp_sum_derivable].
    + intros y Hy. pose proof (IH y (proj1 Hy)). lra.
Qed.
Lemma exp_below n x : 0 <= x <= 1 -> exp x <= exp_sum x n + 3 * (x ^ S n / INR (fact (S n))).
Proof.
  revert x. induction n as [|n IH]; intros x H.
  - pose proof (increasing_from_0 (fun x => 1 + 3 * (x ^ 1 / INR (fact 1)) - exp x) (fun x => 0 + 3 * (x ^ 0 / INR (fact 0)) - exp x) x (proj1 H)) as K.
    cbv beta in K. rewrite exp_0, pow_ne_zero in K by discriminate. cbn [exp_sum].
    assert (1 + 3 * (0 / INR (fact 1)) - 1 <= 1 + 3 * (x ^ 1 / INR (fact 1)) - exp x); [|unfold Rdiv in *; lra]. apply K.
    + intros y _. apply (derivable_pt_lim_minus (fun x => 1 + 3 * (x ^ 1 / INR (fact 1))) exp); [|apply derivable_pt_lim_exp].
      apply (derivable_pt_lim_plus (fun _ => 1) (fun x => 3 * (x ^ 1 / INR (fact 1)))); [apply derivable_pt_lim_const|].
      apply (derivable_pt_lim_scal (fun x => x ^ 1 / INR (fact 1))). apply term_derivable.
    + intros y Hy. cbn. assert (exp y <= exp 1); [|pose proof exp_le_3; lra]. destruct (Rle_lt_or_eq_dec y 1 ltac:(lra)) as [L| ->]; [left; now apply exp_increasing|lra].
  - pose proof (increasing_from_0 (fun x => exp_sum x (S n) + 3 * (x ^ S (S n) / INR (fact (S (S n)))) - exp x) (fun x => exp_sum x n + 3 * (x ^ S n / INR (fact (S n))) - exp x) x (proj1 H)) as K.
    cbv beta in K. rewrite exp_sum_0, exp_0, pow_ne_zero in K by discriminate.
    assert (1 + 3 * (0 / INR (fact (S (S n)))) - 1 <= exp_sum x (S n) + 3 * (x ^ S (S n) / INR (fact (S (S n)))) - exp x); [|unfold Rdiv in *; lra]. apply K.
    + intros y _. apply (derivable_pt_lim_minus (fun x => exp_sum x (S n) + 3 * (x ^ S (S n) / INR (fact (S (S n))))) exp); [|apply derivable_pt_lim_exp].
      apply (derivable_pt_lim_plus (fun x => exp_sum x (S n)) (fun x => 3 * (x ^ S (S n) / INR (fact (S (S n)))))); [apply exp_sum_derivable|].
      apply (derivable_pt_lim_scal (fun x => x ^ S (S n) / INR (fact (S (S n))))). apply term_derivable.
    + intros y Hy. pose proof (IH y ltac:(lra)). lra.
Qed.
(** [t] is the term of index [i]; returns the sum of [n] further terms and the last term. *)
Fixpoint expQ (a t s : Q) (i : positive) (n : nat) : Q * Q :=
  match n with O => (s, t) | S n => let t' := Qred (Qdiv (Qmult t a) (inject_Z (Z.pos i))) in expQ a t' (Qred (Qplus s t')) (Pos.succ i) n end.
Lemma expQ_sum a n m t s i : Q2R t = Q2R a ^ m / INR (fact m) -> Q2R s = exp_sum (Q2R a) m -> Z.pos i = Z.of_nat (S m) ->
  Q2R (fst (expQ a t s i n)) = exp_sum (Q2R a) (m + n) /\ Q2R (snd (expQ a t s i n)) = Q2R a ^ (m + n) / INR (fact (m + n)).
Proof.
  revert m t s i. induction n as [|n IH]; intros m t s i Et Es Ei.
  - rewrite Nat.add_0_r. auto.
  - cbn [expQ]. rewrite <- Nat.add_succ_comm.
    assert (Et' : Q2R (Qred (Qdiv (Qmult t a) (inject_Z (Z.pos i)))) = Q2R a ^ S m / INR (fact (S m))).
    { rewrite (Qeq_eqR _ _ (Qred_correct _)), Q2R_div by discriminate. rewrite Q2R_mult, Et, Q2R_inject, Ei.
      rewrite <- INR_IZR_INZ, fact_simpl, mult_INR. cbn [pow]. field. split; [apply INR_fact_neq_0|apply not_0_INR; lia]. }
    apply IH; [exact Et'| |lia]. rewrite (Qeq_eqR _ _ (Qred_correct _)), Q2R_plus, Es, Et'. reflexivity.
Qed.
Definition exp_poly (a : Q) (n : nat) : Q * Q := expQ a 1 1 1 n.
Lemma exp_poly_sum a n : Q2R (fst (exp_poly a n)) = exp_sum (Q2R a) n /\ Q2R (snd (exp_poly a n)) = Q2R a ^ n / INR (fact n).
Proof. apply (expQ_sum a n 0); try reflexivity; cbn; unfold Q2R; cbn; field. Qed.
Lemma ln_above a b n : (0 < b)%Q -> (0 <= a <= 1)%Q -> (fst (exp_poly a n) + 3 * snd (exp_poly a (S n)) < b)%Q -> Q2R a < ln (Q2R b).
Proof.
  intros Hb [H0 H1] H. apply Qle_Rle in H0, H1. apply Qlt_Rlt in H, Hb. rewrite Q2R_plus, Q2R_mult in H.
  replace (Q2R 0) with 0 in * by (unfold Q2R; cbn; field). replace (Q2R 1) with 1 in * by (unfold Q2R; cbn; field). replace (Q2R 3) with 3 in * by (unfold Q2R; cbn; field).
  destruct (exp_poly_sum a n) as [E _]. destruct (exp_poly_sum a (S n)) as [_ E']. rewrite E, E' in H. pose proof (exp_below n (Q2R a) (conj H0 H1)).
  apply exp_lt_inv. rewrite exp_ln by exact Hb. lra.
Qed.
Lemma ln_below a b n : (0 < b)%Q -> (0 <= a)%Q -> (b < fst (exp_poly a n))%Q -> ln (Q2R b) < Q2R a.
Proof.
  intros Hb H0 H. apply Qle_Rle in H0. apply Qlt_Rlt in H, Hb. replace (Q2R 0) with 0 in * by (unfold Q2R; cbn; field).
  destruct (exp_poly_sum a n) as [E _]. rewrite E in H. pose proof (exp_above n (Q2R a) H0). apply exp_lt_inv. rewrite exp_ln by exact Hb. lra.
Qed.
Lemma ln2_bounds : 0.69314718055994530 < ln 2 < 0.69314718055994531.
Proof.
  split.
  - pose proof (ln_above (69314718055994530 # 100000000000000000) 2 19 ltac:(reflexivity) ltac:(split; discriminate) ltac:(vm_compute; reflexivity)) as H.
    replace (Q2R 2) with 2 in H by (unfold Q2R; cbn; field). unfold Q2R in H. cbn [Qnum Qden] in H. lra.
  - pose proof (ln_below (69314718055994531 # 100000000000000000) 2 19 ltac:(reflexivity) ltac:(discriminate) ltac:(vm_compute; reflexivity)) as H.
    replace (Q2R 2) with 2 in H by (unfold Q2R; cbn; field). unfold Q2R in H. cbn [Qnum Qden] in H. lra.
Qed.
