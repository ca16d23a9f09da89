(** Subdivision of the inputs in exact real arithmetic: the functions of numbers are uniformly continuous on bounded ranges. *)
From Coq Require Import Reals Bool List Lra Psatz.
From Flocq Require Import Core.
From Verif Require Import Outcome Num NumLaws XReal RealNum RealMath IntervalModel MathModel MathSpec LangModel LimitSpec.
Import ListNotations.
Open Scope R_scope.

(** ** Uniform continuity of real functions on a segment *)
Definition uc1 (f : R -> R) (l h : R) : Prop := forall eps, 0 < eps -> exists delta, 0 < delta /\ forall r s, l <= r <= h -> l <= s <= h -> Rabs (r - s) <= delta -> Rabs (f r - f s) <= eps.
Lemma uc1_heine f l h : (forall x, l <= x <= h -> continuity_pt f x) -> uc1 f l h.
Proof.
  intros C eps He. destruct (Heine_cor2 (f := f) (a := l) (b := h) C (mkposreal eps He)) as [[d Hd] H]. cbn in H. exists (d / 2). split; [lra|].
  intros r s Hr Hs L. apply Rlt_le, H; auto. lra.
Qed.
Lemma uc1_sqrt l h : 0 <= l -> uc1 sqrt l h.
Proof.
  intros Hl eps He. exists (eps * eps). split; [nra|].
  assert (G : forall r s, l <= s -> s <= r -> r - s <= eps * eps -> sqrt r - sqrt s <= eps).
  { intros r s A B C. pose proof (sqrt_sqrt r) as Er. pose proof (sqrt_sqrt s) as Es. pose proof (sqrt_pos r). pose proof (sqrt_pos s).
    destruct (Rle_lt_dec (sqrt r - sqrt s) eps) as [|K]; auto. exfalso. specialize (Er ltac:(lra)). specialize (Es ltac:(lra)). nra. }
  intros r s Hr Hs L. assert (A := Rle_abs (r - s)). assert (B := Rle_abs (- (r - s))). rewrite Rabs_Ropp in B.
  destruct (Rle_lt_dec s r) as [K|K].
  - rewrite Rabs_pos_eq; [apply G; lra|]. pose proof (sqrt_le_1_alt s r K). lra.
  - rewrite Rabs_minus_sym, Rabs_pos_eq; [apply G; lra|]. pose proof (sqrt_le_1_alt r s ltac:(lra)). lra.
Qed.
Lemma cbrt_cube r : Rcbrt r * Rcbrt r * Rcbrt r = r.
Proof.
  assert (P : forall a, 0 < a -> Rpower a (/ 3) * Rpower a (/ 3) * Rpower a (/ 3) = a).
  { intros a Ha. rewrite <- !Rpower_plus. replace (/ 3 + / 3 + / 3) with 1 by lra. now apply Rpower_1. }
  unfold Rcbrt. destruct (Rcompare_spec r 0) as [K|K|K].
  - pose proof (P (- r) ltac:(lra)). lra.
  - subst. lra.
  - now apply P.
Qed.
Lemma uc1_cbrt l h : uc1 Rcbrt l h.
Proof.
  intros eps He. exists (eps * eps * eps / 4). assert (0 < eps * eps * eps) by (repeat apply Rmult_lt_0_compat; lra). split; [lra|].
  intros r s _ _ L. pose proof (cbrt_cube r) as Er. pose proof (cbrt_cube s) as Es. set (u := Rcbrt r) in *. set (v := Rcbrt s) in *.
  assert (G : forall u v, v <= u -> u * u * u - v * v * v <= eps * eps * eps / 4 -> u - v <= eps).
  { clear - He H. intros u v L K. destruct (Rle_lt_dec (u - v) eps) as [|Q]; auto. exfalso.
    assert (T : 0 <= (u - v) * ((u + v) * (u + v))) by (apply Rmult_le_pos; [lra|apply Rle_0_sqr]).
    assert (E : 4 * (u * u * u - v * v * v) - (u - v) * (u - v) * (u - v) = 3 * ((u - v) * ((u + v) * (u + v)))) by ring.
    assert (J : eps * eps * eps < (u - v) * (u - v) * (u - v)).
    { apply Rmult_gt_0_lt_compat; try nra. }
    lra. }
  assert (A := Rle_abs (r - s)). assert (B := Rle_abs (- (r - s))). rewrite Rabs_Ropp in B.
  destruct (Rle_lt_dec v u) as [K|K].
  - rewrite Rabs_pos_eq by lra. apply G; lra.
  - rewrite Rabs_minus_sym, Rabs_pos_eq by lra. apply G; lra.
Qed.
Lemma sin_gap a b : - (PI / 2) <= b -> b <= a -> a <= PI / 2 -> 1 - cos (a - b) <= sin a - sin b.
Proof.
  intros H1 H2 H3. set (d := (a - b) / 2). set (m := (a + b) / 2). replace a with (m + d) by (unfold m, d; lra). replace b with (m - d) by (unfold m, d; lra).
  replace (m + d - (m - d)) with (2 * d) by lra. rewrite sin_plus, sin_minus, cos_2a_sin. pose proof PI_RGT_0.
  assert (S : sin d <= cos m).
  { replace (sin d) with (cos (PI / 2 - d)) by (rewrite cos_shift; reflexivity). destruct (Rle_lt_dec 0 m) as [K|K].
    - apply cos_decr_1; unfold m, d in *; lra.
    - rewrite <- (cos_neg m). apply cos_decr_1; unfold m, d in *; lra. }
  assert (P : 0 <= sin d) by (apply sin_ge_0; unfold d; lra). nra.
Qed.
Lemma uc1_asin l h : -1 <= l -> h <= 1 -> uc1 asin l h.
Proof.
  intros Hl Hh eps He. set (e := Rmin eps PI). pose proof PI_RGT_0. assert (0 < e <= PI) by (unfold e; split; [apply Rmin_glb_lt; lra|apply Rmin_r]).
  assert (C1 : cos e < 1) by (rewrite <- cos_0; apply cos_decreasing_1; lra).
  exists ((1 - cos e) / 2). split; [lra|].
  assert (G : forall r s, -1 <= s -> s <= r -> r <= 1 -> r - s <= (1 - cos e) / 2 -> asin r - asin s <= eps).
  { intros r s A B C D. destruct (Rle_lt_dec (asin r - asin s) eps) as [|K]; auto. exfalso.
    pose proof (asin_bound r) as Br. pose proof (asin_bound s) as Bs.
    assert (e < asin r - asin s \/ asin r - asin s <= e) as [Q|Q] by lra; [|unfold e in Q; pose proof (Rmin_l eps PI); lra].
    pose proof (sin_gap (asin r) (asin s) ltac:(lra) ltac:(lra) ltac:(lra)) as S. rewrite !sin_asin in S by lra.
    assert (cos (asin r - asin s) <= cos e) by (apply cos_decr_1; lra). lra. }
  assert (I : forall r s, -1 <= s -> s <= r -> r <= 1 -> asin s <= asin r).
  { intros r s A B C. destruct (Rle_lt_dec (asin s) (asin r)) as [|K]; auto. exfalso. pose proof (asin_bound r) as Br. pose proof (asin_bound s) as Bs.
    pose proof (sin_increasing_1 (asin r) (asin s) ltac:(lra) ltac:(lra) ltac:(lra) ltac:(lra) K) as S. rewrite !sin_asin in S by lra. lra. }
  intros r s Hr Hs L. assert (A := Rle_abs (r - s)). assert (B := Rle_abs (- (r - s))). rewrite Rabs_Ropp in B.
  destruct (Rle_lt_dec s r) as [K|K].
  - rewrite Rabs_pos_eq; [apply G; lra|]. pose proof (I r s ltac:(lra) ltac:(lra) ltac:(lra)). lra.
  - rewrite Rabs_minus_sym, Rabs_pos_eq; [apply G; lra|]. pose proof (I s r ltac:(lra) ltac:(lra) ltac:(lra)). lra.
Qed.
Lemma uc1_acos l h : -1 <= l -> h <= 1 -> uc1 acos l h.
Proof.
  intros Hl Hh eps He. destruct (uc1_asin l h Hl Hh eps He) as (d & Hd & H). exists d. split; [exact Hd|]. intros r s Hr Hs L. rewrite !acos_asin by lra.
  replace (PI / 2 - asin r - (PI / 2 - asin s)) with (asin s - asin r) by lra. rewrite Rabs_minus_sym. now apply H.
Qed.
Lemma uc1_ln l h : 0 < l -> uc1 ln l h.
Proof. intros Hl. apply uc1_heine. intros x Hx. apply derivable_continuous_pt. exists (/ x). apply derivable_pt_lim_ln. lra. Qed.
Lemma uc1_exp l h : uc1 exp l h.
Proof. apply uc1_heine. intros x _. apply derivable_continuous_pt, derivable_pt_exp. Qed.
Lemma uc1_atan l h : uc1 atan l h.
Proof. apply uc1_heine. intros x _. apply derivable_continuous_pt, derivable_pt_atan. Qed.
Lemma uc1_abs l h : uc1 Rabs l h.
Proof. intros eps He. exists eps. split; [exact He|]. intros r s _ _ L. pose proof (Rabs_triang_inv2 r s). lra. Qed.
Lemma uc1_opp l h : uc1 Ropp l h.
Proof. intros eps He. exists eps. split; [exact He|]. intros r s _ _ L. replace (- r - - s) with (- (r - s)) by lra. now rewrite Rabs_Ropp. Qed.
Lemma uc1_id l h : uc1 (fun r => r) l h.
Proof. intros eps He. exists eps. auto. Qed.
Lemma uc1_square l h : uc1 (fun r => r * r) l h.
Proof. apply uc1_heine. intros x _. reg. Qed.
Lemma uc1_cube l h : uc1 (fun r => r * r * r) l h.
Proof. apply uc1_heine. intros x _. reg. Qed.

(** ** Two arguments *)
Definition uc2 (f : R -> R -> R) (l h l' h' : R) : Prop := forall eps, 0 < eps -> exists delta, 0 < delta /\
  forall r s r' s', l <= r <= h -> l <= s <= h -> l' <= r' <= h' -> l' <= s' <= h' -> Rabs (r - s) <= delta -> Rabs (r' - s') <= delta -> Rabs (f r r' - f s s') <= eps.
Ltac abs_cases := repeat match goal with H : Rabs ?x <= _ |- _ => pose proof (Rle_abs x); let K := fresh in pose proof (Rle_abs (- x)) as K; rewrite Rabs_Ropp in K; generalize dependent (Rabs x); intros end.
Lemma uc2_add l h l' h' : uc2 Rplus l h l' h'.
Proof. intros eps He. exists (eps / 2). split; [lra|]. intros r s r' s' _ _ _ _ A B. apply Rabs_le. abs_cases. lra. Qed.
Lemma uc2_sub l h l' h' : uc2 Rminus l h l' h'.
Proof. intros eps He. exists (eps / 2). split; [lra|]. intros r s r' s' _ _ _ _ A B. apply Rabs_le. abs_cases. lra. Qed.
Lemma uc2_min l h l' h' : uc2 Rmin l h l' h'.
Proof. intros eps He. exists eps. split; [lra|]. intros r s r' s' _ _ _ _ A B. apply Rabs_le. abs_cases. unfold Rmin. destruct (Rle_dec r r'), (Rle_dec s s'); lra. Qed.
Lemma uc2_max l h l' h' : uc2 Rmax l h l' h'.
Proof. intros eps He. exists eps. split; [lra|]. intros r s r' s' _ _ _ _ A B. apply Rabs_le. abs_cases. unfold Rmax. destruct (Rle_dec r r'), (Rle_dec s s'); lra. Qed.
Lemma bound_abs l h r : l <= r <= h -> Rabs r <= Rabs l + Rabs h.
Proof. intros H. apply Rabs_le. pose proof (Rle_abs h). pose proof (Rle_abs (- l)) as K. rewrite Rabs_Ropp in K. pose proof (Rabs_pos l). pose proof (Rabs_pos h). lra. Qed.
Lemma uc2_mul l h l' h' : uc2 Rmult l h l' h'.
Proof.
  intros eps He. set (k := Rabs l + Rabs h + (Rabs l' + Rabs h') + 1). assert (Hk : 1 <= k) by (unfold k; pose proof (Rabs_pos l); pose proof (Rabs_pos h); pose proof (Rabs_pos l'); pose proof (Rabs_pos h'); lra).
  exists (eps / k). assert (D : 0 < eps / k) by (apply Rdiv_lt_0_compat; lra). split; [exact D|]. intros r s r' s' Hr Hs Hr' Hs' A B.
  replace (r * r' - s * s') with (r * (r' - s') + s' * (r - s)) by ring. eapply Rle_trans; [apply Rabs_triang|]. rewrite !Rabs_mult.
  pose proof (bound_abs l h r Hr). pose proof (bound_abs l' h' s' Hs'). pose proof (Rabs_pos r). pose proof (Rabs_pos s').
  assert (E : eps = k * (eps / k)) by (field; lra).
  assert (Rabs r * Rabs (r' - s') <= Rabs r * (eps / k)) by (apply Rmult_le_compat_l; auto).
  assert (Rabs s' * Rabs (r - s) <= Rabs s' * (eps / k)) by (apply Rmult_le_compat_l; auto).
  assert ((Rabs r + Rabs s') * (eps / k) <= k * (eps / k)) by (apply Rmult_le_compat_r; [lra|unfold k; lra]). lra.
Qed.
Lemma uc2_div l h l' h' : 0 < l' \/ h' < 0 -> uc2 Rdiv l h l' h'.
Proof.
  intros Hz eps He. destruct (Rle_lt_dec l' h') as [L'|L']; [|exists 1; split; [lra|]; intros r s r' s' _ _ Q; exfalso; lra].
  assert (U : uc1 Rinv l' h').
  { apply uc1_heine. intros x Hx. apply derivable_continuous_pt. apply (derivable_pt_inv (fun x => x)); [lra|apply derivable_pt_id]. }
  assert (B : exists a b, forall r, l' <= r <= h' -> a <= / r <= b).
  { destruct Hz as [Hz|Hz].
    - exists 0, (/ l'). intros r Hr. split; [apply Rlt_le, Rinv_0_lt_compat; lra|apply Rinv_le; lra].
    - exists (/ h'), 0. intros r Hr. split; [|apply Rlt_le, Rinv_lt_0_compat; lra].
      assert (K : / - h' >= / - r) by (apply Rle_ge, Rinv_le; lra). rewrite !Rinv_opp in K. lra. }
  destruct B as (a & b & B). destruct (uc2_mul l h a b eps He) as (d & Hd & H). destruct (U d Hd) as (d' & Hd' & H').
  exists (Rmin d d'). split; [now apply Rmin_glb_lt|]. intros r s r' s' Hr Hs Hr' Hs' A A'. pose proof (Rmin_l d d'). pose proof (Rmin_r d d').
  apply H; auto; [lra|]. apply H'; auto. lra.
Qed.
