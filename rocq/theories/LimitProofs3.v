(** Subdivision of the inputs in exact real arithmetic: fine subdivisions exist; jumps. *)
From Coq Require Import Reals ZArith Bool List Lra Lia.
From Flocq Require Import Core.
From Verif Require Import Outcome SetModel Spec SetProofs Num NumLaws XReal RealNum RealMath IntervalModel IvlSpec IvlProofs ArithProofs ArithProofs2 ArithProofs3 ArithProofs4 ConstrainModel CondSpec ConstrainProofs ConstrainProofs3
  MathModel MathSpec MathProofs MathWrap ValueTypes LangModel LangSpec LangProofs LangProofs2 LimitSpec LimitProofs LimitProofs2.
Import ListNotations.
Open Scope R_scope.

Local Notation N := real_num.
Local Notation M := (Some real_math).

(** ** Subdivisions *)
Lemma pieces_n d (Hd : 0 < d) n : forall l u, l <= u -> u - l <= INR n * d -> exists Is : list (ivl N),
  (forall I, In I Is -> exists a b, I = TrigProofs.RI a b /\ l <= a /\ a <= b /\ b <= u /\ b - a <= d) /\
  (forall r, l <= r <= u -> exists a b, In (TrigProofs.RI a b) Is /\ a <= r <= b).
Proof.
  induction n as [|n IH]; intros l u L W.
  - exists [TrigProofs.RI l u]. cbn in W. split.
    + intros I [<-|[]]. exists l, u. split; [reflexivity|]. lra.
    + intros r Hr. exists l, u. split; [now left|exact Hr].
  - rewrite S_INR in W. destruct (Rle_lt_dec (u - l) d) as [S|S].
    + exists [TrigProofs.RI l u]. split.
      * intros I [<-|[]]. exists l, u. split; [reflexivity|]. lra.
      * intros r Hr. exists l, u. split; [now left|exact Hr].
    + destruct (IH (l + d) u ltac:(lra) ltac:(lra)) as (Is & A & B). exists (TrigProofs.RI l (l + d) :: Is). split.
      * intros I [<-|H]; [exists l, (l + d); split; [reflexivity|lra]|]. destruct (A I H) as (a & b & -> & K). exists a, b. split; [reflexivity|lra].
      * intros r Hr. destruct (Rle_lt_dec r (l + d)) as [Q|Q]; [exists l, (l + d); split; [now left|lra]|].
        destruct (B r ltac:(lra)) as (a & b & H & K). exists a, b. split; [now right|exact K].
Qed.
Lemma pieces d (X : ivl N) : 0 < d -> proper X -> bounded (Iv X) -> exists Is : list (ivl N),
  (forall I, In I Is -> proper I /\ subset I X /\ narrow d (Iv I)) /\ (forall v, el X v -> exists I, In I Is /\ el I v).
Proof.
  intros Hd P (l & u & El & Eu). destruct X as [x y]. cbn in El, Eu. subst x y. apply TrigProofs.real_proper in P as L.
  assert (Hn : exists n, (u - l) / d <= INR n).
  { destruct (archimed ((u - l) / d)) as [H _]. exists (Z.to_nat (up ((u - l) / d))). rewrite INR_IZR_INZ, Z2Nat.id; [lra|].
    apply le_IZR. assert (0 <= (u - l) / d) by (apply Rmult_le_pos; [lra|apply Rlt_le; now apply Rinv_0_lt_compat]). lra. }
  destruct Hn as [n Hn]. assert (W : u - l <= INR n * d).
  { apply Rmult_le_reg_r with (/ d); [now apply Rinv_0_lt_compat|]. rewrite Rmult_assoc, Rinv_r by lra. unfold Rdiv in Hn. lra. }
  destruct (pieces_n d Hd n l u L W) as (Is & A & B). exists Is. split.
  - intros I H. destruct (A I H) as (a & b & -> & H1 & H2 & H3 & H4). split; [now apply TrigProofs.real_proper|]. split.
    + intros v K. apply TrigProofs.real_el in K as (r & -> & Hr). apply TrigProofs.real_el. exists r. split; [reflexivity|lra].
    + exists a, b. split; [reflexivity|]. split; [reflexivity|exact H4].
  - intros v K. apply TrigProofs.real_el in K as (r & -> & Hr). destruct (B r Hr) as (a & b & H & K). eexists. split; [exact H|].
    apply TrigProofs.real_el. eauto.
Qed.
Lemma boxes d (Xs : list (ivl N)) : 0 < d -> Forall proper Xs -> Forall (fun X => bounded (Iv X)) Xs -> exists Bs : list (list (ivl N)),
  (forall B, In B Bs -> Forall proper B /\ Forall2 subset B Xs /\ Forall (fun X => narrow d (Iv X)) B) /\ (forall xs, Forall2 el Xs xs -> exists B, In B Bs /\ Forall2 el B xs).
Proof.
  intros Hd P Bd. induction P as [|X Xs PX _ IH].
  - exists [[]]. split; [intros B [<-|[]]; auto|]. intros xs H. inversion H. exists []. split; [now left|constructor].
  - inversion Bd as [|? ? BX BXs]; subst. destruct (IH BXs) as (Bs & A & Cv), (pieces d X Hd PX BX) as (Is & A' & Cv').
    exists (flat_map (fun I => map (cons I) Bs) Is). split.
    + intros B H. apply in_flat_map in H as (I & HI & H). apply in_map_iff in H as (B0 & <- & HB). destruct (A B0 HB) as (A1 & A2 & A3), (A' I HI) as (A4 & A5 & A6). auto.
    + intros xs H. inversion H as [|? x ? xs' Hx Hxs]; subst. destruct (Cv' x Hx) as (I & HI & KI), (Cv xs' Hxs) as (B & HB & KB).
      exists (I :: B). split; [|now constructor]. apply in_flat_map. exists I. split; [exact HI|]. now apply in_map.
Qed.

(** ** Jumps *)
Definition around (d : R) : ivl N := TrigProofs.RI (- d) 0.
Definition floor_x : expr N := EUn UFloor (EVar 0%nat).
Definition step_x : expr N := EIf (QRel RLt (EVar 0%nat) (ELit (XFin 0 : N))) (ELit (XFin 0 : N)) (ELit (XFin 1 : N)).
Lemma around_ok d : 0 < d -> proper (around d). Proof. intros H. apply le_fin. lra. Qed.
Lemma around_narrow d w : d <= w -> narrow w (Iv (around d)). Proof. intros H. exists (- d), 0. split; [reflexivity|]. split; [reflexivity|]. lra. Qed.
Lemma two_wide (Z : ivl N) a b : el Z (XFin a) -> el Z (XFin b) -> 1 <= b - a -> ~ narrow (1 / 2) (Iv Z).
Proof. intros A B L Nw. destruct (narrow_el (Iv Z) _ _ _ Nw A B) as (r & s & E & F & H). injection E as <-. injection F as <-. revert H. unfold Rabs. destruct Rcase_abs; lra. Qed.
Lemma step_eval dbg d : 0 < d -> exists Z, ieval M dbg [Iv (around d)] step_x = Ret (Iv Z) /\ ~ narrow (1 / 2) (Iv Z).
Proof.
  intros H. assert (A1 : @o_lt N (XFin (- d)) (XFin 0) = true) by (apply TrigProofs.real_lt; lra). assert (A2 : @o_le N (XFin 0) (XFin 0) = true) by (apply le_fin; lra).
  assert (As : assigned (around d) = true) by (unfold assigned, around; cbn; unfold xlt, xle; rewrite (Rle_bool_false 0 (- d)) by lra; reflexivity).
  pose proof (if_else_hull real_laws (compare_lt (Iv (around d)) (Sc (XFin 0 : N))) (TrigProofs.RI 0 0) (TrigProofs.RI 1 1)) as K.
  destruct K as (Z & E & K & _); try (apply TrigProofs.real_proper; lra).
  assert (C : compare_lt (Iv (around d)) (Sc (XFin 0 : N)) = bassign (bassign set_empty true) false).
  { unfold compare_lt. cbn [alower aupper around lo hi]. rewrite A1, A2. reflexivity. }
  exists Z. split.
  - unfold step_x. rewrite ieval_if, itest_rel. cbn [ieval ilookup nth_error bind operand_for]. unfold c_rel, c_lt, rel_lt, rel_pre. cbn [op_arg aassigned].
    rewrite As. assert (X : forall b, expects_debug b true = Ret tt) by (intros [|]; reflexivity). rewrite X. cbn [bind]. rewrite C in E |- *. cbn [lift_if cset as_ivl]. exact (f_equal (fun o => R <- o ;; Ret (Iv R)) E).
  - rewrite C in K. assert (Mb : forall t, member (bassign (bassign set_empty true) false) t) by (intros [|]; rewrite !bassign_member; auto). destruct K as [K _]; [exists true; apply Mb|].
    apply (two_wide Z 0 1); [| |lra]; apply K; [left|right]; (split; [apply Mb|]); apply TrigProofs.real_el; eexists; (split; [reflexivity|lra]).
Qed.
Lemma floor_eval dbg d : 0 < d < 1 -> exists Z, ieval M dbg [Iv (around d)] floor_x = Ret (Iv Z) /\ ~ narrow (1 / 2) (Iv Z).
Proof.
  intros H. destruct (fp_floor fm_real dbg (around d) (around_ok d (proj1 H))) as (Z & E & K & _). exists Z. split.
  - unfold floor_x. rewrite ieval_un. cbn [ieval ilookup nth_error bind lift1 iun with_math]. rewrite E. reflexivity.
  - apply (two_wide Z (-1) 0); [| |lra]; apply K; [exists (XFin (- d))|exists (XFin 0)]; (split; [apply TrigProofs.real_el; eexists; split; [reflexivity|lra]|]).
    + unfold sfloor. cbn. replace (Zfloor (- d)) with (-1)%Z; [reflexivity|]. symmetry. apply Zfloor_imp. cbn. lra.
    + unfold sfloor. cbn. now rewrite (Zfloor_IZR 0).
Qed.
Lemma jump_refuted dbg e (He : e = floor_x \/ e = step_x) : forall delta, 0 < delta -> exists X Z : ivl N, proper X /\ subset X (TrigProofs.RI (-1) 1) /\ narrow delta (Iv X) /\ ieval M dbg [Iv X] e = Ret (Iv Z) /\ ~ narrow (1 / 2) (Iv Z).
Proof.
  intros delta Hd. set (d := Rmin delta (1 / 2)). assert (0 < d) by (apply Rmin_glb_lt; lra). pose proof (Rmin_l delta (1 / 2)). pose proof (Rmin_r delta (1 / 2)). fold d in H0, H1.
  assert (G : (exists Z, ieval M dbg [Iv (around d)] e = Ret (Iv Z) /\ ~ narrow (1 / 2) (Iv Z))) by (destruct He as [-> | ->]; [apply floor_eval|apply step_eval]; lra).
  destruct G as (Z & E & K). exists (around d), Z. split; [now apply around_ok|]. split; [|split; [now apply around_narrow|auto]].
  intros v Hv. apply TrigProofs.real_el in Hv as (r & -> & Hr). apply TrigProofs.real_el. exists r. split; [reflexivity|lra].
Qed.

(** ** An example *)
Definition exp_minus : expr N := EBin BSub (EUn UExp (EVar 0%nat)) (EVar 0%nat).
Lemma exp_eval dbg : ieval M dbg (map Iv [TrigProofs.RI 0 1]) (EUn UExp (EVar 0%nat)) = Ret (Iv (TrigProofs.RI (exp 0) (exp 1))).
Proof.
  cbn [map]. rewrite ieval_un. cbn [ieval ilookup nth_error bind lift1 iun with_math]. unfold iexp, sexp. rewrite expects_debug_true by (unfold assigned; cbn; unfold xlt, xle; rewrite (Rle_bool_false 1 0) by lra; reflexivity).
  cbn [bind real_math m_exp lo hi]. change (@bind (ivl N) (arg N) (mk (XFin (exp 0) : N) (XFin (exp 1) : N)) (fun R2 => Ret (Iv R2)) = Ret (Iv (TrigProofs.RI (exp 0) (exp 1)))).
  rewrite TrigProofs.real_mk; [reflexivity|]. apply Rlt_le, exp_increasing. lra.
Qed.
Lemma exp_minus_eval dbg : ieval M dbg (map Iv [TrigProofs.RI 0 1]) exp_minus = Ret (Iv (TrigProofs.RI (exp 0 - 1) (exp 1 - 0))).
Proof.
  pose proof (exp_increasing 0 1 ltac:(lra)) as L. unfold exp_minus. rewrite ieval_bin, exp_eval. cbn [bind ieval ilookup map nth_error lift2 ibin]. unfold isub.
  rewrite expects_debug_true by (unfold aassigned, assigned; cbn; unfold xlt, xle; rewrite (Rle_bool_false (exp 1) (exp 0)), (Rle_bool_false 1 0) by lra; reflexivity). cbn [bind].
  change (@bind (ivl N) (arg N) (mk (XFin (exp 0 - 1) : N) (XFin (exp 1 - 0) : N)) (fun R2 => Ret (Iv R2)) = Ret (Iv (TrigProofs.RI (exp 0 - 1) (exp 1 - 0)))).
  rewrite TrigProofs.real_mk; [reflexivity|lra].
Qed.
Lemma exp_minus_ok dbg : eclean M dbg (map Iv [TrigProofs.RI 0 1]) exp_minus /\ ebounded dbg (map Iv [TrigProofs.RI 0 1]) exp_minus.
Proof.
  pose proof (exp_increasing 0 1 ltac:(lra)) as L.
  assert (Nv : forall o a b, a <= b -> o = Ret (Iv (TrigProofs.RI a b)) -> number o /\ forall x, o = Ret x -> bounded x).
  { intros o a b H ->. split; intros x K; injection K as <-; [now apply TrigProofs.real_proper|]. exists a, b. split; reflexivity. }
  assert (V0 : ieval M dbg (map Iv [TrigProofs.RI 0 1]) (EVar 0%nat) = Ret (Iv (TrigProofs.RI 0 1))) by reflexivity.
  destruct (Nv _ 0 1 ltac:(lra) V0) as [A1 B1], (Nv _ (exp 0) (exp 1) ltac:(lra) (exp_eval dbg)) as [A2 B2], (Nv _ (exp 0 - 1) (exp 1 - 0) ltac:(lra) (exp_minus_eval dbg)) as [A3 B3].
  split; cbn; auto 10.
Qed.
