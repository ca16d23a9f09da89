(** Exact real arithmetic as a value type: the idealisation in which the trigonometric, exponential and blending
    functions are analysed.  Extended reals with NaN; operators do not round; there is one zero, which divides like +0. *)
From Coq Require Import Reals Bool Lra.
From Flocq Require Import Core.
From Verif Require Import Outcome Num NumLaws XReal.
Open Scope R_scope.

Definition real_ordty : ordty := {|
  car := xr; o_lt := xlt; o_le := xle; o_eq := xeq; o_disc := false; o_succ := fun a => Ret a; o_pred := fun a => Ret a
|}.
Definition real_num : num := {|
  n_ord := real_ordty;
  n_float := true;
  n_top := XPinf;
  n_bot := XNinf;
  n_nan := XNan;
  n_zero := XFin 0;
  n_one := XFin 1;
  n_mone := XFin (-1);
  n_neg := fun a => Ret (xopp a);
  n_abs := fun a => Ret (xabs a);
  n_add := fun a b => Ret (xadd a b);
  n_sub := fun a b => Ret (xsub a b);
  n_mul := fun a b => Ret (xmul a b);
  n_div := fun a b => Ret (xdiv a b)
|}.

Lemma real_round x : xround XFin x = x. Proof. now destruct x. Qed.
Lemma real_denotes : denotes real_num XFin (fun a => a).
Proof.
  constructor; cbn; auto; intros; try (eexists; split; [reflexivity|]; rewrite ?real_round; auto).
  - now apply Rle_bool_true.
  - apply real_round.
  - split; [auto|]. intros ->. destruct a; cbn; try (now split; [|intros [|]]; auto); unfold xsinf; rewrite ?Req_bool_true, ?Rlt_bool_false by lra.
    + split; [discriminate|intros [|]; discriminate].
    + destruct (Rcompare_spec r 0); (split; [try discriminate; intros _; right; now subst|intros [|E]; [discriminate|injection E; intros; try lra; auto]]).
    + split; [discriminate|intros [|]; discriminate].
  - now rewrite xadd_comm.
  - now rewrite xmul_comm.
  - left. split; [exact H|]. cbn. unfold is_zero in H. cbn in H. apply xeq_iff in H as [ -> _]. cbn. rewrite Req_bool_true by auto. unfold xsinf. now rewrite Rcompare_Gt by lra.
  - destruct H as [H _]. unfold is_zero in H. cbn in H. apply xeq_iff in H as [ -> _].
    unfold xlt. destruct a; cbn; unfold xsinf; rewrite ?Req_bool_true, ?Rlt_bool_false by lra; split; try discriminate; auto; xcase; try discriminate; auto; intros; lra.
  - destruct H as [H K]. unfold is_zero in H. cbn in H, K. apply xeq_iff in H as [ -> _]. cbn in K. rewrite Req_bool_true in K by auto. unfold xsinf in K. rewrite Rcompare_Gt in K by lra. discriminate.
Qed.
Lemma real_laws : num_laws real_num.
Proof. exact (denotes_laws real_denotes). Qed.
