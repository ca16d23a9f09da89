(** Lifting of the monotone library functions; monotonicity of the real functions. *)
From Coq Require Import Reals ZArith Bool Lra.
From Flocq Require Import Core BinarySingleNaN.
From Verif Require Import Outcome SetModel Spec Num NumLaws IntervalModel IvlSpec IvlProofs IntNum FloatNum XReal RealNum FloatProofs
  MathModel FloatMath RealMath MathSpec MathProofs.
Open Scope R_scope.

Section Lift.
  Context {N : num} (HO : ord_laws N) (M : math N).
  Implicit Types (X : ivl N) (x : N) (dbg : bool).

  Lemma el_nonneg X x : el X x -> nonneg (lo X) -> nonneg x.
  Proof. intros [H _] H0. exact (ol_trans N HO _ _ _ H0 H). Qed.
  Lemma el_within X x : el X x -> within_one (lo X) -> within_one (hi X) -> within_one x.
  Proof. intros [H H'] [A _] [_ B]. split; [exact (ol_trans N HO _ _ _ A H)|exact (ol_trans N HO _ _ _ H' B)]. Qed.
  Lemma within_all X : proper X -> within_one (lo X) -> within_one (hi X) -> forall x, el X x -> within_one x.
  Proof. intros _ A B x Hx. now apply (el_within X). Qed.

  Lemma cbrt_hull dbg X : proper X -> increasing anywhere (m_cbrt M) -> hull_of (scbrt M) (icbrt M dbg X) X.
  Proof.
    intros H K. unfold hull_of, icbrt. rewrite (dbg_assigned HO) by auto. cbn.
    apply (inc_hull HO anywhere (m_cbrt M) (scbrt M) X H); [split; [exact Logic.I|reflexivity]|exact K].
  Qed.
  Lemma exp_hull dbg X : proper X -> increasing anywhere (m_exp M) -> hull_of (sexp M) (iexp M dbg X) X.
  Proof.
    intros H K. unfold hull_of, iexp. rewrite (dbg_assigned HO) by auto. cbn.
    apply (inc_hull HO anywhere (m_exp M) (sexp M) X H); [split; [exact Logic.I|reflexivity]|exact K].
  Qed.
  Lemma atan_hull dbg X : proper X -> increasing anywhere (m_atan M) -> hull_of (satan M) (iatan M dbg X) X.
  Proof.
    intros H K. unfold hull_of, iatan. rewrite (dbg_assigned HO) by auto. cbn.
    apply (inc_hull HO anywhere (m_atan M) (satan M) X H); [split; [exact Logic.I|reflexivity]|exact K].
  Qed.
  Lemma log_hull dbg X : proper X -> nonneg (lo X) -> increasing nonneg (m_log M) -> hull_of (slog M dbg) (ilog M dbg X) X.
  Proof.
    intros H H0 K. unfold hull_of, ilog. rewrite (dbg_assigned HO) by auto. cbn.
    assert (P : forall x, el X x -> nonneg x /\ slog M dbg x = Ret (m_log M x)).
    { intros x Hx. pose proof (el_nonneg X x Hx H0) as Q. split; [exact Q|]. unfold slog. unfold nonneg in Q. rewrite Q. now destruct dbg. }
    rewrite (proj2 (P _ (el_lower HO X H))), (proj2 (P _ (el_upper HO X H))). cbn.
    apply (inc_hull HO nonneg (m_log M) (slog M dbg) X H P K).
  Qed.
  Lemma within_ret dbg X (f : N -> N) : (forall x, el X x -> within_one x) ->
    forall x, el X x -> within_one x /\ (expects_debug dbg (o_le n_mone x && o_le x n_one) ;;; Ret (f x)) = Ret (f x).
  Proof. intros Q x Hx. specialize (Q x Hx). split; [exact Q|]. destruct Q as [ -> -> ]. now destruct dbg. Qed.
  Lemma asin_hull dbg X : proper X -> within_one (lo X) -> within_one (hi X) -> increasing within_one (m_asin M) -> hull_of (sasin M dbg) (iasin M dbg X) X.
  Proof.
    intros H H1 H2 K. unfold hull_of, iasin. rewrite (dbg_assigned HO) by auto. cbn.
    pose proof (within_ret dbg X (m_asin M) (within_all X H H1 H2)) as P.
    unfold sasin at 1 2. rewrite (proj2 (P _ (el_lower HO X H))), (proj2 (P _ (el_upper HO X H))). cbn.
    apply (inc_hull HO within_one (m_asin M) (sasin M dbg) X H P K).
  Qed.
  Lemma acos_hull dbg X : proper X -> within_one (lo X) -> within_one (hi X) -> decreasing within_one (m_acos M) -> hull_of (sacos M dbg) (iacos M dbg X) X.
  Proof.
    intros H H1 H2 K. unfold hull_of, iacos. rewrite (dbg_assigned HO) by auto. cbn.
    pose proof (within_ret dbg X (m_acos M) (within_all X H H1 H2)) as P.
    unfold sacos at 1 2. rewrite (proj2 (P _ (el_lower HO X H))), (proj2 (P _ (el_upper HO X H))). cbn.
    apply (dec_hull HO within_one (m_acos M) (sacos M dbg) X H P K).
  Qed.

  (** failures in checked builds *)
  Lemma ret_not_fail {A} (x : outcome A) a : x = Ret a -> x <> FailFast. Proof. intros ->. discriminate. Qed.
  Lemma hull_not_fail f F X : hull_of f F X -> F <> FailFast. Proof. intros (Z & -> & _). discriminate. Qed.
  Lemma log_fails X : proper X -> increasing nonneg (m_log M) -> fails_with_element (slog M true) (ilog M true X) X.
  Proof.
    intros H K. destruct (o_le n_zero (lo X)) eqn:E.
    - split; [intros F; exfalso; exact (hull_not_fail _ _ _ (log_hull true X H E K) F)|].
      intros (x & Hx & Fx). exfalso. pose proof (el_nonneg X x Hx E) as Q. unfold slog in Fx. unfold nonneg in Q. rewrite Q in Fx. discriminate.
    - split; intros _.
      + exists (lo X). split; [apply (el_lower HO X H)|]. unfold slog. rewrite E. reflexivity.
      + unfold ilog. rewrite (dbg_assigned HO) by auto. unfold slog. rewrite E. reflexivity.
  Qed.
  Lemma sqrt_fails X : proper X -> increasing nonneg (m_sqrt M) -> fails_with_element (ssqrt M true) (isqrt M true X) X.
  Proof.
    intros H K. destruct (o_le n_zero (lo X)) eqn:E.
    - split.
      + intros F. exfalso. unfold isqrt in F. rewrite (dbg_assigned HO) in F by auto. cbn in F.
        unfold ssqrt in F. rewrite E in F. pose proof (el_nonneg X (hi X) (el_upper HO X H) E) as Q. unfold nonneg in Q. rewrite Q in F. cbn in F.
        pose proof (K _ _ E Q H) as L. destruct (ol_ok N HO _ _ L) as [A B]. destruct (fub_ends HO _ _ A B) as (Z & EZ & _). rewrite EZ in F. discriminate.
      + intros (x & Hx & Fx). exfalso. pose proof (el_nonneg X x Hx E) as Q. unfold ssqrt in Fx. unfold nonneg in Q. rewrite Q in Fx. discriminate.
    - split; intros _.
      + exists (lo X). split; [apply (el_lower HO X H)|]. unfold ssqrt. rewrite E. reflexivity.
      + unfold isqrt. rewrite (dbg_assigned HO) by auto. unfold ssqrt. rewrite E. reflexivity.
  Qed.
  Lemma range_dec X : {within_one (lo X) /\ within_one (hi X)} + {(o_le n_mone (lo X) && o_le (lo X) n_one) = false \/ (o_le n_mone (hi X) && o_le (hi X) n_one) = false}.
  Proof.
    unfold within_one. destruct (o_le n_mone (lo X)), (o_le (lo X) n_one), (o_le n_mone (hi X)), (o_le (hi X) n_one); cbn; auto.
  Qed.
  Lemma outside_fails X (f : N -> N) : proper X ->
    (o_le n_mone (lo X) && o_le (lo X) n_one) = false \/ (o_le n_mone (hi X) && o_le (hi X) n_one) = false ->
    exists x, el X x /\ (expects_debug true (o_le n_mone x && o_le x n_one) ;;; Ret (f x)) = FailFast.
  Proof.
    intros H [E|E]; [exists (lo X)|exists (hi X)]; rewrite E; auto using (el_lower HO), (el_upper HO).
  Qed.
  Lemma asin_fails X : proper X -> increasing within_one (m_asin M) -> fails_with_element (sasin M true) (iasin M true X) X.
  Proof.
    intros H K. destruct (range_dec X) as [[E1 E2]|E].
    - split; [intros F; exfalso; exact (hull_not_fail _ _ _ (asin_hull true X H E1 E2 K) F)|].
      intros (x & Hx & Fx). exfalso. destruct (within_all X H E1 E2 x Hx) as [Q1 Q2]. unfold sasin in Fx. rewrite Q1, Q2 in Fx. discriminate.
    - split; intros _; [apply (outside_fails X (m_asin M) H E)|]. unfold iasin. rewrite (dbg_assigned HO) by auto. unfold sasin.
      destruct E as [E|E]; rewrite E; cbn; [reflexivity|]. now destruct (o_le n_mone (lo X) && o_le (lo X) n_one).
  Qed.
  Lemma acos_fails X : proper X -> decreasing within_one (m_acos M) -> fails_with_element (sacos M true) (iacos M true X) X.
  Proof.
    intros H K. destruct (range_dec X) as [[E1 E2]|E].
    - split; [intros F; exfalso; exact (hull_not_fail _ _ _ (acos_hull true X H E1 E2 K) F)|].
      intros (x & Hx & Fx). exfalso. destruct (within_all X H E1 E2 x Hx) as [Q1 Q2]. unfold sacos in Fx. rewrite Q1, Q2 in Fx. discriminate.
    - split; intros _; [apply (outside_fails X (m_acos M) H E)|]. unfold iacos. rewrite (dbg_assigned HO) by auto. unfold sacos.
      destruct E as [E|E]; rewrite E; cbn; [|reflexivity]. now destruct (o_le n_mone (hi X) && o_le (hi X) n_one).
  Qed.
End Lift.

(** The exact real functions are monotone. *)
Lemma Rpower_third_cube r : 0 < r -> Rpower r (/ 3) ^ 3 = r.
Proof.
  intros H. rewrite <- Rpower_pow by (apply exp_pos). rewrite Rpower_mult. replace (/ 3 * INR 3) with 1 by (simpl; field). now apply Rpower_1.
Qed.
Lemma Rcbrt_cube r : Rcbrt r ^ 3 = r.
Proof.
  unfold Rcbrt. destruct (Rcompare_spec r 0) as [H|H|H].
  - replace ((- Rpower (- r) (/ 3)) ^ 3) with (- (Rpower (- r) (/ 3) ^ 3)) by ring. rewrite Rpower_third_cube by lra. ring.
  - subst. ring.
  - now apply Rpower_third_cube.
Qed.
Lemma cube_lt a b : a < b -> a ^ 3 < b ^ 3.
Proof. intros H. assert (0 < (b - a) * (b * b + a * b + a * a)); [|lra]. apply Rmult_lt_0_compat; [lra|].
  pose proof (Rle_0_sqr (a + b)). assert (0 < Rsqr (b - a)) by (apply Rsqr_pos_lt; lra). unfold Rsqr in *. lra.
Qed.
Lemma Rcbrt_inc a b : a <= b -> Rcbrt a <= Rcbrt b.
Proof.
  intros H. destruct (Rle_or_lt (Rcbrt a) (Rcbrt b)) as [|K]; auto. exfalso. apply cube_lt in K. rewrite !Rcbrt_cube in K. lra.
Qed.
Lemma exp_le a b : a <= b -> exp a <= exp b.
Proof. intros [H| ->]; [left; now apply exp_increasing|lra]. Qed.
Lemma ln_le' a b : 0 < a -> a <= b -> ln a <= ln b.
Proof. intros H [K| ->]; [left; now apply ln_increasing|lra]. Qed.
Lemma atan_le a b : a <= b -> atan a <= atan b.
Proof. intros [H| ->]; [left; now apply atan_increasing|lra]. Qed.
Lemma asin_le a b : -1 <= a -> b <= 1 -> a <= b -> asin a <= asin b.
Proof.
  intros Ha Hb H. destruct (Rle_or_lt (asin a) (asin b)) as [|K]; auto. exfalso.
  pose proof (asin_bound a). pose proof (asin_bound b).
  assert (sin (asin b) < sin (asin a)) by (apply sin_increasing_1; lra). rewrite !sin_asin in * by lra. lra.
Qed.
Lemma acos_le a b : -1 <= a -> b <= 1 -> a <= b -> acos b <= acos a.
Proof. intros Ha Hb H. rewrite !acos_asin by lra. pose proof (asin_le a b Ha Hb H). lra. Qed.

Lemma real_cbrt_inc : increasing anywhere (m_cbrt real_math).
Proof. intros [| |a|] [| |b|] _ _; cbn; auto. xcase; auto; try discriminate. intros _. exfalso. pose proof (Rcbrt_inc a b H). lra. Qed.
Lemma real_exp_inc : increasing anywhere (m_exp real_math).
Proof.
  intros [| |a|] [| |b|] _ _; cbn; auto; try discriminate; intros H; apply Rle_bool_true.
  - lra. - left. apply exp_pos. - apply exp_le. destruct (Rle_bool_spec a b); auto; discriminate.
Qed.
Lemma real_atan_inc : increasing anywhere (m_atan real_math).
Proof.
  intros [| |a|] [| |b|] _ _; cbn; auto; intros H; apply Rle_bool_true; try discriminate; pose proof PI_RGT_0; try lra.
  - pose proof (atan_bound b). lra.
  - apply atan_le. destruct (Rle_bool_spec a b); auto; discriminate.
  - pose proof (atan_bound a). lra.
Qed.
Lemma real_log_inc : increasing nonneg (m_log real_math).
Proof.
  intros [| |a|] [| |b|]; unfold nonneg; cbn; auto; try discriminate; intros Ha Hb H.
  - destruct (Rle_bool_spec 0 a), (Rle_bool_spec 0 b), (Rle_bool_spec a b); try discriminate.
    destruct (Rcompare_spec a 0), (Rcompare_spec b 0); cbn; auto; try lra. apply Rle_bool_true. apply ln_le'; lra.
  - destruct (Rle_bool_spec 0 a); try discriminate. destruct (Rcompare_spec a 0); cbn; auto; lra.
Qed.
Lemma real_sqrt_inc : increasing nonneg (m_sqrt real_math).
Proof. apply (sqrt_inc real_denotes real_mdenotes). Qed.
Lemma real_within (x : real_num) : within_one x -> exists r, x = XFin r /\ -1 <= r <= 1.
Proof.
  unfold within_one. destruct x as [| |r|]; cbn; try (intros [? ?]; discriminate). intros [A B]. exists r.
  destruct (Rle_bool_spec (-1) r), (Rle_bool_spec r 1); try discriminate. auto.
Qed.
Lemma real_asin_inc : increasing within_one (m_asin real_math).
Proof.
  intros x y Hx Hy. destruct (real_within x Hx) as (a & -> & Ha), (real_within y Hy) as (b & -> & Hb). cbn. intros H. rewrite !Rle_bool_true by lra. cbn.
  apply Rle_bool_true. apply asin_le; try lra. destruct (Rle_bool_spec a b); auto; discriminate.
Qed.
Lemma real_acos_dec : decreasing within_one (m_acos real_math).
Proof.
  intros x y Hx Hy. destruct (real_within x Hx) as (a & -> & Ha), (real_within y Hy) as (b & -> & Hb). cbn. intros H. rewrite !Rle_bool_true by lra. cbn.
  apply Rle_bool_true. apply acos_le; try lra. destruct (Rle_bool_spec a b); auto; discriminate.
Qed.
