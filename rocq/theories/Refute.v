(** Witnesses for claims that the code does not satisfy. *)
From Coq Require Import Bool List ZArith Lia.
From Flocq Require Import Core BinarySingleNaN.
From Verif Require Import Outcome SetModel Spec Num NumLaws IntervalModel IvlSpec IvlProofs ArithProofs ArithProofs5 Reach IntNum IntProofs FloatNum FloatProofs ValueTypes IvlWrap.
Import ListNotations.

Lemma encloses_both {O : ordty} (HO : ord_laws O) (X Y : ivl O) : proper Y ->
  (encloses_ivl X Y = true <-> forall v, el Y v -> o_lt (lo X) v = true /\ o_lt v (hi X) = true)
  /\ forall v, encloses X v = true <-> o_lt (lo X) v = true /\ o_lt v (hi X) = true.
Proof.
  intros HY. split; [|intros v; apply encloses_iff]. rewrite (encloses_ivl_iff HO X Y HY). split; intros H v Hv; [now apply encloses_iff, H|apply encloses_iff, H, Hv].
Qed.
Lemma free_reset_eq (O : ordty) (X Y : ivl O) : free_reset X Y = Y.
Proof. now destruct Y. Qed.

Lemma obtainable_weaken {N : num} (dbg : bool) (W W' : N -> N -> Prop) : (forall l u, W l u -> W' l u) -> forall X, obtainable dbg W X -> obtainable dbg W' X.
Proof.
  intros HW. apply (obtainable_mut N dbg W (fun X _ => obtainable dbg W' X) (fun x _ => obtainable_arg dbg W' x)); intros.
  - apply ob_default.
  - apply ob_of.
  - eapply ob_mk; eauto.
  - eapply ob_fub; eauto.
  - now apply ob_copy.
  - now apply ob_reset.
  - now apply ob_reset_value.
  - now apply ob_reset_default.
  - eapply (ob_assign _ _ X Y); eauto.
  - now apply ob_assign_value.
  - eapply (ob_unary _ _ F X); eauto.
  - eapply (ob_binary _ _ F x y); eauto.
  - eapply (ob_signs _ _ s X); eauto.
  - eapply ob_scalar_signs; eauto.
  - eapply (ob_if_else _ _ c X Y); eauto.
  - eapply (ob_merge _ _ X Y); eauto.
  - eapply (ob_intersect _ _ X Y); eauto.
  - apply oa_scalar.
  - now apply oa_interval.
Qed.
Lemma obtainable_int w Hw dbg (X : ivl (int_num w Hw)) : obtainable dbg (fun _ _ => True) X -> assigned X = true \/ X = ivl_default.
Proof.
  intros H. pose proof (int_num_laws w Hw) as HN. apply (good_assigned HN), (obtainable_good HN dbg). eapply obtainable_weaken; [|exact H].
  intros l u _. unfold both. rewrite !(nan_iff HN). pose proof (nl_int_ok _ HN eq_refl l). pose proof (nl_int_ok _ HN eq_refl u). tauto.
Qed.

(** interval{ NaN, 5. } *)
Lemma half_nan_inverted : exists X : ivl float64, obtainable true (fun _ _ => True) X /\ assigned X = false /\ X <> ivl_default.
Proof.
  exists (Ivl n_top (f64 5 0)). split; [|split; [reflexivity|]].
  - apply (ob_assign true _ ivl_default (Ivl n_nan (f64 5 0))); [apply ob_default| |reflexivity]. apply (ob_mk true _ n_nan (f64 5 0)); [exact I|reflexivity].
  - intros H. apply (f_equal (fun X => @o_eq float64 (hi X) n_bot)) in H. vm_compute in H. discriminate.
Qed.
Lemma intersect_gap : exists (X Y Z : ivl int32) (v : int32), proper X /\ proper Y /\ intersect X [Y] = Ret Z /\ el Z v /\ ~ (el X v /\ el Y v).
Proof.
  exists (Ivl (i32 0) (i32 1)), (Ivl (i32 2) (i32 3)).
  destruct (ret_witness (intersect (Ivl (i32 0) (i32 1)) [Ivl (i32 2) (i32 3)]) (fun Z => contains Z (i32 1))) as (Z & HZ & Hc); [vm_compute; reflexivity|].
  exists Z, (i32 1). split; [reflexivity|]. split; [reflexivity|]. split; [exact HZ|]. split; [now apply contains_iff|].
  intros [_ [H _]]. vm_compute in H. discriminate.
Qed.
Lemma intersect_order : exists (X Y W Z Z' : ivl int32) (v : int32), proper X /\ proper Y /\ proper W
  /\ intersect X [Y; W] = Ret Z /\ intersect X [W; Y] = Ret Z' /\ el Z' v /\ ~ el Z v.
Proof.
  exists (Ivl (i32 0) (i32 1)), (Ivl (i32 4) (i32 5)), (Ivl (i32 2) (i32 3)).
  destruct (ret_witness (intersect (Ivl (i32 0) (i32 1)) [Ivl (i32 4) (i32 5); Ivl (i32 2) (i32 3)]) (fun Z => negb (contains Z (i32 4)))) as (Z & HZ & Hc); [vm_compute; reflexivity|].
  destruct (ret_witness (intersect (Ivl (i32 0) (i32 1)) [Ivl (i32 2) (i32 3); Ivl (i32 4) (i32 5)]) (fun Z => contains Z (i32 4))) as (Z' & HZ' & Hc'); [vm_compute; reflexivity|].
  exists Z, Z', (i32 4). do 3 (split; [reflexivity|]). split; [exact HZ|]. split; [exact HZ'|]. split; [now apply contains_iff|]. rewrite <- contains_iff. intros H. now rewrite H in Hc.
Qed.
(** interval{ 1. } / interval{ -1., 0. } = [-1, inf], but 1. / -0.5 = -2. *)
Lemma div_zero_end : exists (X Y Z : ivl float64) (x y q : float64),
  proper X /\ proper Y /\ ~ nan_pair n_div (Iv X) (Iv Y) /\ el X x /\ el Y y /\ ~ is_zero y /\ idiv true (Iv X) (Iv Y) = Ret Z /\ n_div x y = Ret q /\ ~ el Z q.
Proof.
  set (X := ivl_of (f64 1 0)). set (Y := Ivl (f64 (-1) 0) (f64 0 0) : ivl float64).
  destruct (ret_witness (idiv true (Iv X) (Iv Y)) (fun Z => negb (contains Z (f64 (-2) 0)))) as (Z & HZ & Hc); [vm_compute; reflexivity|].
  destruct (ret_witness (@n_div float64 (f64 1 0) (f64 (-1) (-1))) (fun q => o_eq q (f64 (-2) 0))) as (q & Hq & Eq); [vm_compute; reflexivity|].
  pose proof (value_type_laws _ vt_float64) as HN.
  assert (HX : proper X) by reflexivity. assert (HY : proper Y) by reflexivity.
  exists X, Y, Z, (f64 1 0), (f64 (-1) (-1)), q. split; [exact HX|]. split; [exact HY|].
  split. { rewrite (ArithProofs2.div_nan_iff HN (Iv X) (Iv Y) HX HY eq_refl). intros [H|H]; vm_compute in H; discriminate. }
  split; [split; reflexivity|]. split; [split; vm_compute; reflexivity|]. split; [vm_compute; discriminate|]. split; [exact HZ|]. split; [exact Hq|].
  intros [H1 H2]. apply negb_true_iff in Hc. unfold contains in Hc. clear - HN H1 H2 Hc Eq. pose proof (nl_ord _ HN) as HO. set (m := f64 (-2) 0) in *. clearbody m. apply andb_false_iff in Hc. destruct Hc; ord HO.
Qed.
(** interval{ 1. } / interval{ -1., -0.5 } = [-2, -1] is not a subset of [-1, inf]. *)
Lemma div_not_isotonic : exists (X Y Y' Z Z' : ivl float64),
  proper X /\ proper Y /\ subset Y Y' /\ idiv true (Iv X) (Iv Y) = Ret Z /\ idiv true (Iv X) (Iv Y') = Ret Z' /\ ~ nan_ivl Z' /\ ~ nan_ivl Z /\ ~ subset Z Z'.
Proof.
  set (X := ivl_of (f64 1 0)). set (Y := Ivl (f64 (-1) 0) (f64 (-1) (-1)) : ivl float64). set (Y' := Ivl (f64 (-1) 0) (f64 0 0) : ivl float64).
  destruct (ret_witness (idiv true (Iv X) (Iv Y)) (fun Z => contains Z (f64 (-2) 0))) as (Z & HZ & Hc); [vm_compute; reflexivity|].
  destruct (ret_witness (idiv true (Iv X) (Iv Y')) (fun Z => negb (contains Z (f64 (-2) 0)) && contains Z (f64 1 0))) as (Z' & HZ' & Hc'); [vm_compute; reflexivity|].
  pose proof (value_type_laws _ vt_float64) as HN. pose proof (nl_ord _ HN) as HO.
  apply andb_true_iff in Hc' as [Hc' H1]. apply contains_iff in Hc, H1.
  exists X, Y, Y', Z, Z'. split; [reflexivity|]. split; [reflexivity|]. split; [apply (subset_iff HO); [reflexivity|split; reflexivity]|]. split; [exact HZ|]. split; [exact HZ'|].
  split. { intros [H _]. apply (nan_iff HN) in H. apply H. exact (el_ok HO Z' _ (el_lower HO Z' (proj2 (proper_iff HO Z') (ex_intro _ _ H1)))). }
  split. { intros [H _]. apply (nan_iff HN) in H. apply H. exact (el_ok HO Z _ (el_lower HO Z (proj2 (proper_iff HO Z) (ex_intro _ _ Hc)))). }
  intros H. apply H, contains_iff in Hc. rewrite Hc in Hc'. discriminate.
Qed.

(** ** Further final forms *)
Lemma asubset_example : asubset (Sc (i32 3)) (Iv (Ivl (i32 1) (i32 4))).
Proof.
  intros v [H1 H2]. cbn in *. rewrite !Z.leb_le in *. split; cbn; apply Z.leb_le; [apply (Z.le_trans _ (val (i32 3)))|apply (Z.le_trans _ (val (i32 3)))]; try assumption; vm_compute; discriminate.
Qed.
Lemma nan_report_float prec emax Hp He (N := float_num prec emax Hp He) dbg (x y : arg N) : aproper x -> aproper y ->
  (exists Z, iadd dbg x y = Ret Z /\ (nan_ivl Z <-> nan_pair n_add x y) /\ (~ nan_pair n_add x y -> proper Z))
  /\ (exists Z, isub dbg x y = Ret Z /\ (nan_ivl Z <-> nan_pair n_sub x y) /\ (~ nan_pair n_sub x y -> proper Z))
  /\ (exists Z, imul dbg x y = Ret Z /\ (nan_ivl Z <-> nan_pair n_mul x y) /\ (~ nan_pair n_mul x y -> proper Z))
  /\ (exists Z, idiv dbg x y = Ret Z /\ (nan_ivl Z <-> nan_pair n_div x y) /\ (~ nan_pair n_div x y -> proper Z)).
Proof.
  apply (nan_report N (vt_float prec emax Hp He) dbg x y eq_refl). intros f Hf u v. cbn in Hf. destruct Hf as [<-|[<-|[<-|[<-|[]]]]]; eexists; reflexivity.
Qed.
Lemma div_encloses_float prec emax Hp He (N := float_num prec emax Hp He) dbg (x y : arg N) : aproper x -> aproper y ->
  ~ nan_pair n_div x y -> zeros_fit y ->
  exists Z, idiv dbg x y = Ret Z /\ forall u v q, ael x u -> ael y v -> ~ is_zero v -> n_div u v = Ret q -> el Z q.
Proof. intros Hx Hy Hn Hz. exact (ArithProofs2.div_encloses (value_type_laws N (vt_float prec emax Hp He)) dbg x y Hx Hy eq_refl Hn Hz). Qed.
Lemma scalar_min_max O : order_type O -> forall x y : O, ok x -> ok y ->
  o_le (omin x y) x = true /\ o_le (omin x y) y = true /\ (omin x y = x \/ omin x y = y)
  /\ o_le x (omax x y) = true /\ o_le y (omax x y) = true /\ (omax x y = x \/ omax x y = y).
Proof.
  intros H x y Hx Hy. pose proof (order_type_laws O H) as HO. split; [now apply (omin_l HO)|]. split; [now apply (omin_r HO)|]. split; [apply omin_cases|].
  split; [now apply (omax_l HO)|]. split; [now apply (omax_r HO)|apply omax_cases].
Qed.
Lemma degenerate_order O : order_type O -> forall dbg (x y : arg O) u v, just x u -> just y v -> ok u -> ok v ->
  rel_eq dbg x y = Ret (bset_of (o_eq u v)) /\ rel_neq dbg x y = Ret (bset_of (negb (o_eq u v)))
  /\ rel_lt dbg x y = Ret (bset_of (o_lt u v)) /\ rel_leq dbg x y = Ret (bset_of (o_le u v))
  /\ rel_gt dbg x y = Ret (bset_of (o_lt v u)) /\ rel_geq dbg x y = Ret (bset_of (o_le v u))
  /\ imin dbg x y = Ret (ivl_of (omin u v)) /\ imax dbg x y = Ret (ivl_of (omax u v)).
Proof.
  intros H dbg x y u v Hx Hy Hu Hv. pose proof (order_type_laws O H) as HO.
  destruct (degenerate_rel HO dbg x y u v Hx Hy Hu Hv) as (A & B & C & D & E & F). destruct (degenerate_minmax HO dbg x y u v Hx Hy Hu Hv) as (G & I). tauto.
Qed.
Lemma degenerate_arith N : value_type N -> forall dbg (x y : arg N) u v, just x u -> just y v -> ok u -> ok v ->
  (like_scalar n_add (iadd dbg x y) u v /\ (n_add u v = UB -> iadd dbg x y = UB))
  /\ (like_scalar n_sub (isub dbg x y) u v /\ (n_sub u v = UB -> isub dbg x y = UB))
  /\ (like_scalar n_mul (imul dbg x y) u v /\ (n_mul u v = UB -> imul dbg x y = UB))
  /\ (like_scalar n_div (idiv dbg x y) u v /\ (n_div u v = UB -> idiv dbg x y = UB \/ (is_zero v /\ idiv dbg x y = Trap))).
Proof.
  intros H dbg x y u v Hx Hy Hu Hv. pose proof (value_type_laws N H) as HN.
  split; [now apply (degenerate_add HN)|]. split; [now apply (degenerate_sub HN)|]. split; [now apply (degenerate_mul HN)|now apply (degenerate_div HN)].
Qed.
Lemma mul_scalar_agree N : value_type N -> forall dbg (x y : arg N) u Z Z', ok u -> aproper y ->
  imul dbg (Sc u) y = Ret Z -> imul dbg (Iv (ivl_of u)) y = Ret Z' -> agree Z Z'.
Proof.
  intros H dbg _ y u Z Z' Hu Hy HZ HZ'. pose proof (value_type_laws N H) as HN. pose proof (nl_ord N HN) as HO.
  assert (P1 : aproper (Sc u)) by exact Hu. assert (P2 : aproper (Iv (ivl_of u))) by exact Hu.
  destruct (proj2 (ArithProofs2.mul_op_ok HN dbg (Sc u) y P1 Hy) Z HZ) as (_ & A & B).
  destruct (proj2 (ArithProofs2.mul_op_ok HN dbg (Iv (ivl_of u)) y P2 Hy) Z' HZ') as (_ & A' & B').
  assert (D : nan_pair n_mul (Sc u) y \/ ~ nan_pair n_mul (Sc u) y). { rewrite <- (mul_nan_iff HN (Sc u) y P1 Hy). destruct (n_float N && _); auto. }
  destruct D as [D|D]; [left; split; [exact (A D)|exact (A' D)]|]. exact (hull_agree HO _ Z Z' (B D) (B' D)).
Qed.
Lemma zeros_fit_example : zeros_fit (Iv (Ivl (@n_zero float64) (f64 4 0))).
Proof.
  split; cbn [alower aupper lo hi].
  - intros [_ H]. apply (f_equal (fun o => match o with Ret q => @o_lt float64 q n_zero | _ => false end)) in H. vm_compute in H. discriminate H.
  - intros [H _]. unfold is_zero in H. vm_compute in H. discriminate H.
Qed.
