(** Concrete expressions with conditions for the rounding errors of decisions (C84). *)
From Coq Require Import Reals ZArith Bool List Lra.
From Flocq Require Import Core BinarySingleNaN.
From Verif Require Import Outcome SetModel Spec Num NumLaws IntervalModel ConstrainModel CondSpec IvlSpec IvlWrap XReal FloatNum FloatMath FloatProofs ValueTypes RoundSpec RoundProofs MachineSpec
  RealMath MathModel MathSpec LangModel LangSpec AccuSpec AccuProofs AccuProofs2 AccuProofs3 NumericFacts DecideSpec.
Import ListNotations.
Open Scope R_scope.

Section Tests.
  Context (L : libm (binary_float 53 1024)) (acc : unop -> R) (dbg : bool).
  Notation M := (Some (float_math 53 1024 prec_gt_0_53 prec_lt_emax_64 L)).

  (** ** [x + y > 1] for [x] = 1, [y] = 2^-53 *)
  Definition sum_above_one : test float64 := QRel RGt sum2 (ELit (f64 1 0)).
  Lemma tie_finite : Forall finite_arg tie_box /\ Forall2 within tie_box [1; bpow radix2 (-53)].
  Proof.
    split; [repeat (apply Forall_cons || apply Forall_nil); (split; [reflexivity|]; split; [reflexivity|apply Rle_refl])|].
    repeat (apply Forall2_cons || apply Forall2_nil); unfold within; cbn [alower aupper]; rewrite ?B2R_one, ?B2R_half_ulp; lra.
  Qed.
  Lemma wrong_side : Forall finite_arg tie_box /\ Forall2 within tie_box [1; bpow radix2 (-53)]
    /\ clear_cut L acc dbg tie_box sum2 /\ clear_cut L acc dbg tie_box (ELit (f64 1 0))
    /\ itest M dbg tie_box sum_above_one = Ret (CBool false) /\ rtruth [1; bpow radix2 (-53)] sum_above_one true
    /\ forall p q : float64, ieval M dbg tie_box (EIf sum_above_one (ELit p) (ELit q)) = Ret (Sc q) /\ rvalue [1; bpow radix2 (-53)] (EIf sum_above_one (ELit p) (ELit q)) (B2R (p : binary_float 53 1024)).
  Proof.
    destruct tie_finite as [T1 T2]. split; [exact T1|]. split; [exact T2|].
    split. { split; [apply ends_finite; destruct dbg; vm_compute; reflexivity|]. split; [|split]; [split; [|exact I]..|intros; exact I]; apply ends_finite; reflexivity. }
    split; [split; [apply ends_finite; reflexivity|exact I]|].
    assert (E : itest M dbg tie_box sum_above_one = Ret (CBool false)).
    { destruct (ret_witness (itest M dbg tie_box sum_above_one) (fun c => match c with CBool false => true | _ => false end)) as (c & E & K); [destruct dbg; vm_compute; reflexivity|].
      rewrite E. destruct c; try discriminate K; destruct b; try discriminate K. reflexivity. }
    assert (T : rtruth [1; bpow radix2 (-53)] sum_above_one true).
    { exists (1 + bpow radix2 (-53)), (B2R (f64 1 0)). split; [exists 1, (bpow radix2 (-53)); repeat split|]. split; [reflexivity|]. split; [|reflexivity]. intros _. cbn [rel_real]. rewrite B2R_one. pose proof (bpow_gt_0 radix2 (-53)). lra. }
    split; [exact E|]. split; [exact T|]. intros p q. split.
    - transitivity (bind (itest M dbg tie_box sum_above_one) (fun c => lift_if c (Sc p) (Sc q : arg float64))); [reflexivity|]. rewrite E. reflexivity.
    - exists true. split; [exact T|]. reflexivity.
  Qed.

  (** ** [if_else(x + y < 5 && !(x * y >= 100), x / y, y - x)] for [x] in [[1, 2]], [y] in [[3, 4]] *)
  Definition choose : expr float64 :=
    EIf (QAnd (QRel RLt sum2 (ELit (f64 5 0))) (QNot (QRel RGe (EBin BMul (EVar 0) (EVar 1)) (ELit (f64 100 0))))) (EBin BDiv (EVar 0) (EVar 1)) (EBin BSub (EVar 1) (EVar 0)).
  Definition choose_box : list (arg float64) := [Iv (Ivl (f64 1 0) (f64 2 0)); Iv (Ivl (f64 3 0) (f64 4 0))].
  Lemma value (m : outcome (arg float64)) (P : arg float64 -> bool) : match m with Ret a => P a | _ => false end = true -> forall a, m = Ret a -> P a = true.
  Proof. intros H a ->. exact H. Qed.
  Lemma leb_real (x y : binary_float 53 1024) : is_finite x && is_finite y && Bleb x y = true -> B2R x <= B2R y.
  Proof.
    intros H. apply andb_true_iff in H as [H O]. apply andb_true_iff in H as [H1 H2]. rewrite Bleb_correct in O by assumption. revert O. case Rle_bool_spec; [auto|discriminate].
  Qed.
  Lemma ltb_real (x y : binary_float 53 1024) : is_finite x && is_finite y && Bltb x y = true -> B2R x < B2R y.
  Proof.
    intros H. apply andb_true_iff in H as [H O]. apply andb_true_iff in H as [H1 H2]. rewrite Bltb_correct in O by assumption. revert O. case Rlt_bool_spec; [auto|discriminate].
  Qed.
  Lemma var_clear (V : list (arg float64)) i : match nth_error V i with Some a => is_finite (alower a : binary_float 53 1024) && is_finite (aupper a : binary_float 53 1024) | None => true end = true -> clear_cut L acc dbg V (EVar i : expr float64).
  Proof. intros H. split; [|exact I]. intros a E. change (ilookup V i = Ret a) in E. unfold ilookup in E. destruct (nth_error V i); [|discriminate E]. injection E as <-. now apply andb_true_iff in H. Qed.
  Lemma lit_clear (V : list (arg float64)) (c : float64) : is_finite (c : binary_float 53 1024) = true -> clear_cut L acc dbg V (ELit c).
  Proof. intros H. split; [|exact I]. intros a E. injection E as <-. split; exact H. Qed.
  Lemma half_ulp_small (x : R) : 0 < x < 16 -> half_ulp 53 1024 x <= 1.
  Proof.
    intros H. unfold half_ulp. assert (U : ulp radix2 (FLT_exp (3 - 1024 - 53) 53) x <= ulp radix2 (FLT_exp (3 - 1024 - 53) 53) (bpow radix2 4)).
    { apply ulp_le; [apply FLT_exp_valid; reflexivity|apply FLT_exp_monotone|]. change (bpow radix2 4) with 16. rewrite !Rabs_pos_eq; lra. }
    rewrite ulp_bpow in U. change (FLT_exp (3 - 1024 - 53) 53 (4 + 1)) with (-48)%Z in U. assert (bpow radix2 (-48) <= bpow radix2 0) by now apply bpow_le. change (bpow radix2 0) with 1 in *. lra.
  Qed.
  Lemma choose_example : Forall finite_arg choose_box /\ Forall2 within choose_box [B2R (f64 1 0); B2R (f64 3 0)] /\ clear_cut L acc dbg choose_box choose /\ exists a, ieval M dbg choose_box choose = Ret a.
  Proof.
    split. { repeat (apply Forall_cons || apply Forall_nil); (split; [reflexivity|]; split; [reflexivity|]; apply leb_real; reflexivity). }
    split. { repeat (apply Forall2_cons || apply Forall2_nil); (split; apply leb_real; reflexivity). }
    split.
    { assert (X : clear_cut L acc dbg choose_box (EVar 0)) by (apply var_clear; reflexivity). assert (Y : clear_cut L acc dbg choose_box (EVar 1)) by (apply var_clear; reflexivity).
      assert (P3 : 0 < B2R (f64 3 0)) by (change 0 with (B2R (B754_zero false : binary_float 53 1024)); apply ltb_real; reflexivity). assert (P4 : 0 < B2R (f64 4 0)) by (change 0 with (B2R (B754_zero false : binary_float 53 1024)); apply ltb_real; reflexivity).
      split; [apply ends_finite; destruct dbg; vm_compute; reflexivity|]. split; [split|split].
      - split; [split; [apply ends_finite; destruct dbg; vm_compute; reflexivity|split; [exact X|split; [exact Y|intros; exact I]]]|]. split; [apply lit_clear; reflexivity|].
        intros x y Ex Ey. injection Ey as <-.
        assert (A : B2R (alower x) < B2R (f64 5 0)) by (apply ltb_real; revert x Ex; apply (value _ (fun x => is_finite (alower x : binary_float 53 1024) && is_finite (f64 5 0) && Bltb (alower x : binary_float 53 1024) (f64 5 0))); destruct dbg; vm_compute; reflexivity).
        assert (B : B2R (f64 5 0) <= B2R (aupper x)) by (apply leb_real; revert x Ex A; intros x Ex _; revert x Ex; apply (value _ (fun x => is_finite (f64 5 0) && is_finite (aupper x : binary_float 53 1024) && Bleb (f64 5 0) (aupper x : binary_float 53 1024))); destruct dbg; vm_compute; reflexivity).
        split; intros _; [exact A|exact B].
      - split; [split; [apply ends_finite; destruct dbg; vm_compute; reflexivity|split; [exact X|split; [exact Y|intros; exact I]]]|]. split; [apply lit_clear; reflexivity|].
        intros x y Ex Ey. injection Ey as <-.
        assert (R8 : B2R (f64 8 0) = 8) by (change (F2R (Float radix2 (Z.pos 4503599627370496) (-49)) = 8); unfold F2R; cbn [Fnum Fexp]; change (bpow radix2 (-49)) with (/ IZR 562949953421312); field).
        assert (R100 : B2R (f64 100 0) = 100) by (change (F2R (Float radix2 (Z.pos 7036874417766400) (-46)) = 100); unfold F2R; cbn [Fnum Fexp]; change (bpow radix2 (-46)) with (/ IZR 70368744177664); field).
        assert (A : B2R (f64 3 0) <= B2R (alower x)) by (apply leb_real; revert x Ex; apply (value _ (fun x => is_finite (f64 3 0) && is_finite (alower x : binary_float 53 1024) && Bleb (f64 3 0) (alower x : binary_float 53 1024))); destruct dbg; vm_compute; reflexivity).
        assert (B : B2R (aupper x) <= B2R (f64 8 0)) by (apply leb_real; clear A; revert x Ex; apply (value _ (fun x => is_finite (aupper x : binary_float 53 1024) && is_finite (f64 8 0) && Bleb (aupper x : binary_float 53 1024) (f64 8 0))); destruct dbg; vm_compute; reflexivity).
        assert (C : B2R (alower x) <= B2R (aupper x)) by (apply leb_real; clear A B; revert x Ex; apply (value _ (fun x => is_finite (alower x : binary_float 53 1024) && is_finite (aupper x : binary_float 53 1024) && Bleb (alower x : binary_float 53 1024) (aupper x : binary_float 53 1024))); destruct dbg; vm_compute; reflexivity).
        rewrite R8 in B.
        assert (D : branch_bound L acc dbg choose_box (EBin BMul (EVar 0) (EVar 1)) <= 1).
        { assert (K : roundoff x <= 1). { unfold roundoff, magnitude. apply half_ulp_small. rewrite !Rabs_pos_eq by lra. rewrite Rmax_right by lra. lra. }
          apply (Rle_trans _ (0 * magnitude (result L dbg choose_box (EVar 1)) + magnitude (result L dbg choose_box (EVar 0)) * 0 + 0 * 0 + roundoff x)); [|lra]. apply Req_le.
          exact (f_equal (fun z => 0 * magnitude (result L dbg choose_box (EVar 1)) + magnitude (result L dbg choose_box (EVar 0)) * 0 + 0 * 0 + roundoff z) (run_result 53 1024 prec_gt_0_53 prec_lt_emax_64 L dbg choose_box _ x Ex)). }
        split; [intros _; refine (Rlt_le_trans _ 100 _ _ (Req_le _ _ (eq_sym R100))); lra|]. intros K. exfalso.
        assert (K' : B2R (f64 100 0) - 0 <= B2R (aupper x) + branch_bound L acc dbg choose_box (EBin BMul (EVar 0) (EVar 1))) by exact K. rewrite R100 in K'. lra.
      - split; [apply ends_finite; destruct dbg; vm_compute; reflexivity|]. split; [exact X|]. split; [exact Y|].
        intros y Ey. cbn [ieval] in Ey. unfold ilookup in Ey. cbn [nth_error choose_box] in Ey. injection Ey as <-. cbn [bin_safe branch_bound]. unfold within, mignitude. cbn [alower aupper lo hi].
        split; [intros [A _]; revert A; apply Rlt_not_le; exact P3|]. apply Rmin_glb_lt; (rewrite Rabs_pos_eq; [exact P3 || exact P4|left; exact P3 || exact P4]).
      - split; [apply ends_finite; destruct dbg; vm_compute; reflexivity|]. split; [exact Y|]. split; [exact X|intros; exact I]. }
    destruct (ret_witness (ieval M dbg choose_box choose) (fun _ => true)) as (a & E & _); [destruct dbg; vm_compute; reflexivity|eauto].
  Qed.
End Tests.
