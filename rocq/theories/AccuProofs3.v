(** Concrete expressions for the accumulated rounding errors (C80). *)
From Coq Require Import Reals ZArith Bool List Lra.
From Flocq Require Import Core BinarySingleNaN.
From Verif Require Import Outcome SetModel Spec Num NumLaws IntervalModel IvlSpec IvlWrap XReal FloatNum FloatMath FloatProofs ValueTypes RoundSpec RoundProofs MachineSpec
  RealMath MathModel MathSpec LangModel LangSpec UseSpec AccuSpec AccuProofs AccuProofs2 NumericFacts SinMachineProofs LibMachineProofs.
Import ListNotations.
Open Scope R_scope.

Definition ends_ok (m : outcome (arg float64)) : bool := match m with Ret a => is_finite (alower a : binary_float 53 1024) && is_finite (aupper a : binary_float 53 1024) | _ => true end.
Lemma ends_finite m : ends_ok m = true -> forall a, m = Ret a -> finite_ends (a : arg float64).
Proof. intros H a ->. apply andb_true_iff in H. exact H. Qed.

(** ** The bound is attained: 1 + 2^-53 *)
Definition sum2 : expr float64 := EBin BAdd (EVar 0) (EVar 1).
Definition tie_box : list (arg float64) := [Sc (f64 1 0); Sc (f64 1 (-53))].
Lemma B2R_one : B2R (f64 1 0) = 1.
Proof. change (F2R (Float radix2 (Z.pos 4503599627370496) (-52)) = 1). unfold F2R. cbn [Fnum Fexp]. change (bpow radix2 (-52)) with (/ IZR 4503599627370496). field. Qed.
Lemma B2R_half_ulp : B2R (f64 1 (-53)) = bpow radix2 (-53).
Proof.
  change (F2R (Float radix2 (Z.pos 4503599627370496) (-105)) = bpow radix2 (-53)). unfold F2R. cbn [Fnum Fexp].
  change (IZR (Z.pos 4503599627370496)) with (bpow radix2 52). rewrite <- bpow_plus. reflexivity.
Qed.
Lemma half_ulp_one : half_ulp 53 1024 1 = bpow radix2 (-53).
Proof.
  unfold half_ulp. change 1 with (bpow radix2 0). rewrite ulp_bpow. change (FLT_exp (3 - 1024 - 53) 53 (0 + 1)) with (-52)%Z.
  change (bpow radix2 (-53)) with (/ IZR 9007199254740992). change (bpow radix2 (-52)) with (/ IZR 4503599627370496). field.
Qed.
Lemma attained (L : libm (binary_float 53 1024)) acc dbg : exists a v,
  Forall finite_arg tie_box /\ analysable L acc dbg tie_box sum2 /\ ieval (Some (float_math 53 1024 prec_gt_0_53 prec_lt_emax_64 L)) dbg tie_box sum2 = Ret a
  /\ exact [1; bpow radix2 (-53)] sum2 v /\ Forall2 within tie_box [1; bpow radix2 (-53)]
  /\ 0 < error_bound L acc dbg tie_box sum2 /\ v = B2R (aupper a : binary_float 53 1024) + error_bound L acc dbg tie_box sum2.
Proof.
  destruct (ret_witness (ieval (Some (float_math 53 1024 prec_gt_0_53 prec_lt_emax_64 L)) dbg tie_box sum2)
    (fun a => match a with Sc w => is_finite (w : binary_float 53 1024) && o_eq w (f64 1 0) | _ => false end)) as (a & E & K).
  { destruct dbg; vm_compute; reflexivity. }
  destruct a as [w|Z]; [|discriminate].
  assert (W : B2R (w : binary_float 53 1024) = 1 /\ is_finite (w : binary_float 53 1024) = true).
  { apply andb_true_iff in K as [Fw Q]. split; [|exact Fw]. rewrite <- B2R_one. change (Beqb (w : binary_float 53 1024) (f64 1 0) = true) in Q. rewrite Beqb_correct in Q by auto.
    destruct (Req_bool_spec (B2R (w : binary_float 53 1024)) (B2R (f64 1 0))); [assumption|discriminate]. }
  destruct W as [W Fw]. exists (Sc w), (1 + bpow radix2 (-53)). 
  assert (EB : error_bound L acc dbg tie_box sum2 = bpow radix2 (-53)).
  { change (error_bound L acc dbg tie_box sum2) with (0 + 0 + roundoff (result L dbg tie_box sum2)). rewrite (run_result 53 1024 prec_gt_0_53 prec_lt_emax_64 L dbg tie_box sum2 (Sc w) E).
    unfold roundoff, magnitude. cbn [alower aupper]. rewrite W, Rabs_R1, Rmax_left by lra. rewrite half_ulp_one. lra. }
  split; [repeat (apply Forall_cons || apply Forall_nil); (split; [reflexivity|]; split; [reflexivity|apply Rle_refl])|].
  split. { cbn [analysable sum2]. split; [intros a Ea; assert (Q : Ret a = Ret (Sc w)) by (transitivity (ieval (Some (float_math 53 1024 prec_gt_0_53 prec_lt_emax_64 L)) dbg tie_box sum2); [now symmetry|exact E]); injection Q as ->; split; exact Fw|].
    split; [|split]; [split; [|exact I]..|intros; exact I]; apply ends_finite; reflexivity. }
  split; [exact E|]. split; [exists 1, (bpow radix2 (-53)); repeat split|].
  split. { repeat (apply Forall2_cons || apply Forall2_nil); unfold within; cbn [alower aupper]; rewrite ?B2R_one, ?B2R_half_ulp; lra. }
  rewrite EB. cbn [alower aupper]. rewrite W. split; [apply bpow_gt_0|reflexivity].
Qed.

(** ** [x / y - square(z)] *)
Definition quotient_minus_square : expr float64 := EBin BSub (EBin BDiv (EVar 0) (EVar 1)) (EUn USquare (EVar 2)).
Definition accu_box : list (ivl float64) := [Ivl (f64 1 0) (f64 2 0); Ivl (f64 3 0) (f64 4 0); Ivl (f64 (-1) 0) (f64 1 (-1))].
Lemma accu_example (L : libm (binary_float 53 1024)) acc dbg :
  Forall finite_arg (map Iv accu_box) /\ analysable L acc dbg (map Iv accu_box) quotient_minus_square
  /\ plain quotient_minus_square = true /\ single_use quotient_minus_square /\ efuns (LangSpec.monotone (Some (float_math 53 1024 prec_gt_0_53 prec_lt_emax_64 L))) quotient_minus_square
  /\ exists a, ieval (Some (float_math 53 1024 prec_gt_0_53 prec_lt_emax_64 L)) dbg (map Iv accu_box) quotient_minus_square = Ret a.
Proof.
  split. { assert (H : forall x : ivl float64, is_finite (lo x : binary_float 53 1024) && is_finite (hi x : binary_float 53 1024) && o_le (lo x) (hi x) = true -> finite_arg (Iv x)).
    { intros x H. apply andb_true_iff in H as [H O]. apply andb_true_iff in H as [H1 H2]. split; [exact H1|]. split; [exact H2|]. cbn [alower aupper]. change (Bleb (lo x : binary_float 53 1024) (hi x : binary_float 53 1024) = true) in O. rewrite Bleb_correct in O by assumption. rename O into OO. destruct (Rle_bool_spec (B2R (lo x : binary_float 53 1024)) (B2R (hi x : binary_float 53 1024))); [assumption|discriminate OO]. }
    cbn [map accu_box]. repeat (apply Forall_cons || apply Forall_nil); apply H; reflexivity. }
  split. { cbn [analysable quotient_minus_square].
    assert (P3 : 0 < B2R (f64 3 0)) by (change (0 < F2R (Float radix2 (Z.pos 6755399441055744) (-51))); apply F2R_gt_0; reflexivity).
    assert (P4 : 0 < B2R (f64 4 0)) by (change (0 < F2R (Float radix2 (Z.pos 4503599627370496) (-50))); apply F2R_gt_0; reflexivity).
    split; [apply ends_finite; destruct dbg; vm_compute; reflexivity|]. split; [|split; [|intros; exact I]].
    - split; [apply ends_finite; destruct dbg; vm_compute; reflexivity|]. split; [split; [apply ends_finite; reflexivity|exact I]|]. split; [split; [apply ends_finite; reflexivity|exact I]|].
      intros y Ey. cbn [ieval] in Ey. unfold ilookup in Ey. cbn [nth_error map accu_box] in Ey. injection Ey as <-. cbn [bin_safe error_bound]. unfold within, mignitude. cbn [alower aupper lo hi].
      split; [intros [A _]; revert A; apply Rlt_not_le; exact P3|]. apply Rmin_glb_lt; (rewrite Rabs_pos_eq; [exact P3 || exact P4|left; exact P3 || exact P4]).
    - split; [apply ends_finite; destruct dbg; vm_compute; reflexivity|]. split; [split; [apply ends_finite; reflexivity|exact I]|intros; exact I]. }
  split; [reflexivity|]. split; [repeat constructor; cbn; intuition discriminate|]. split; [cbn; repeat split; discriminate|].
  destruct (ret_witness (ieval (Some (float_math 53 1024 prec_gt_0_53 prec_lt_emax_64 L)) dbg (map Iv accu_box) quotient_minus_square) (fun _ => true)) as (a & E & _); [destruct dbg; vm_compute; reflexivity|eauto].
Qed.

(** ** [atan(log(x))] with a correctly rounded C library *)
Definition atan_log : expr float64 := EUn UAtan (EUn ULog (EVar 0)).
Definition half_to_one : ivl float64 := Ivl (f64 1 (-1)) (f64 1 0).
Lemma accu_lib_example dbg (NL := nearest_libm 53 1024 prec_gt_0_53 prec_lt_emax_64) (acc := fun _ : unop => bpow radix2 (-53) * (4 + 1)) :
  Forall finite_arg [Iv half_to_one] /\ analysable NL acc dbg [Iv half_to_one] atan_log
  /\ exists a, ieval (Some (float_math 53 1024 prec_gt_0_53 prec_lt_emax_64 NL)) dbg [Iv half_to_one] atan_log = Ret a.
Proof.
  destruct lib_example as (FX & _ & PX & _ & _ & IL & _ & _ & WL & _). change (Ivl (f64 1 (-1)) (f64 1 0) : ivl float64) with half_to_one in *.
  destruct (log_near 53 1024 prec_gt_0_53 prec_lt_emax_64 NL (bpow radix2 (-53) * (4 + 1)) dbg half_to_one FX PX IL WL) as (Z & EZ & FZ & _).
  assert (B4 : 4 <= bpow radix2 (1024 - 1)) by (apply Rle_trans with (bpow radix2 2); [cbn; lra|apply bpow_le; discriminate]).
  assert (WA : forall x, @fn_within 53 1024 prec_gt_0_53 prec_lt_emax_64 (bpow radix2 (-53) * (4 + 1)) atan (l_atan NL) x).
  { intros x. apply (nearest_fn 53 1024 prec_gt_0_53 prec_lt_emax_64 atan (l_atan NL) 4 x); [exact B4|reflexivity|]. intros r Hr. apply Rabs_le. pose proof (atan_bound r). pose proof pi_bounds. lra. }
  destruct (atan_near 53 1024 prec_gt_0_53 prec_lt_emax_64 NL (bpow radix2 (-53) * (4 + 1)) dbg Z FZ (WA (Iv Z))) as (Y & EY & FY & _).
  assert (E1 : ieval (Some (float_math 53 1024 prec_gt_0_53 prec_lt_emax_64 NL)) dbg [Iv half_to_one] (EUn ULog (EVar 0)) = Ret (Iv Z)).
  { change (x <- ilog (float_math 53 1024 prec_gt_0_53 prec_lt_emax_64 NL) dbg half_to_one ;; Ret (Iv x) = Ret (Iv Z)). now rewrite EZ. }
  assert (E2 : ieval (Some (float_math 53 1024 prec_gt_0_53 prec_lt_emax_64 NL)) dbg [Iv half_to_one] atan_log = Ret (Iv Y)).
  { unfold atan_log. cbn [ieval] in *. rewrite E1. cbn [bind]. change (x <- iatan (float_math 53 1024 prec_gt_0_53 prec_lt_emax_64 NL) dbg Z ;; Ret (Iv x) = Ret (Iv Y)). now rewrite EY. }
  split; [apply Forall_cons; [exact FX|apply Forall_nil]|]. split; [|eauto].
  cbn [analysable atan_log]. split; [intros a Ea; pose proof (eq_trans (eq_sym Ea) E2) as Q; injection Q as ->; split; apply FY|].
  split; [|intros x _; exact (WA x)]. split; [intros a Ea; pose proof (eq_trans (eq_sym Ea) E1) as Q; injection Q as ->; split; apply FZ|].
  split; [split; [apply ends_finite; reflexivity|exact I]|]. intros x Ex. cbn [ieval] in Ex. unfold ilookup in Ex. cbn [nth_error] in Ex. injection Ex as <-.
  cbn [un_safe error_bound]. split; [exact PX|]. split; [exact WL|exact IL].
Qed.
