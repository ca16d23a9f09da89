(** The blending helpers with operands of different value types (C71). *)
From Coq Require Import Reals ZArith Bool Lra Lia.
From Flocq Require Import Core BinarySingleNaN.
From Verif Require Import Outcome SetModel SetProofs MathModel FloatMath MathSpec FloatMathProofs Spec Num NumLaws IntervalModel IvlSpec IvlProofs ArithProofs IntNum IntProofs XReal FloatNum FloatProofs
  ValueTypes MathProofs RoundSpec RoundProofs WrapProofs MachineSpec NumericFacts TrigMachineProofs SinMachineProofs BlendProofs PowNearProofs PowLibProofs LibMachineProofs BlendMachineProofs
  MixedModel MixedProofs MixedArithModel ConvProofs MixedArithProofs MixedBlendModel IvlWrap.
Open Scope R_scope.
Local Ltac destruct_le := match goal with |- context [Rle_bool ?a ?b] => destruct (Rle_bool a b) end.

(** ** Checks of integers *)
Section IntChecks.
  Variables (w : Z) (Hw : (2 <= w)%Z) (dbg : bool).
  Notation IN := (int_num w Hw).
  Implicit Types (a b f : arg IN).
  Lemma le_0v (v : IN) : o_le n_zero v = (0 <=? val v)%Z. Proof. reflexivity. Qed.
  Lemma lt_v0 (v : IN) : o_lt v n_zero = (val v <? 0)%Z. Proof. reflexivity. Qed.
  Lemma le_v0 (v : IN) : o_le v n_zero = (val v <=? 0)%Z. Proof. reflexivity. Qed.
  Lemma lt_0v (v : IN) : o_lt n_zero v = (0 <? val v)%Z. Proof. reflexivity. Qed.
  Lemma le_v1 (v : IN) : o_le v n_one = (val v <=? 1)%Z. Proof. reflexivity. Qed.
  Lemma lt_1v (v : IN) : o_lt n_one v = (1 <? val v)%Z. Proof. reflexivity. Qed.
  Lemma int_assigned f : (val (alower f) <= val (aupper f))%Z -> aassigned f = true.
  Proof. destruct f as [v|X]; [reflexivity|]. cbn. intros H. unfold assigned. cbn. now rewrite (proj2 (Z.ltb_ge _ _) H). Qed.
  Lemma int_fraction f : (0 <= val (alower f))%Z -> (val (alower f) <= val (aupper f))%Z -> (val (aupper f) <= 1)%Z -> check dbg (always_fraction dbg f) = Ret tt.
  Proof.
    intros H0 H H1. unfold check. destruct dbg eqn:Ed; [|reflexivity]. rewrite <- Ed. pose proof (int_assigned f H) as A. destruct f as [v|X]; cbn [always_fraction alower aupper] in *.
    - cbn. rewrite (proj2 (Z.leb_le _ _) H0), (proj2 (Z.leb_le _ _) H1). reflexivity.
    - unfold rel_geq, rel_leq, rel_pre. rewrite A. cbn [aassigned andb]. replace (expects_debug dbg true) with (Ret tt) by (now destruct dbg). cbn [bind].
      unfold compare_leq. cbn [alower aupper]. rewrite le_0v, lt_v0, le_v1, lt_1v.
      rewrite (proj2 (Z.leb_le 0 (val (hi X))) ltac:(lia)), (proj2 (Z.ltb_ge (val (lo X)) 0) ltac:(lia)), (proj2 (Z.leb_le (val (lo X)) 1) ltac:(lia)), (proj2 (Z.ltb_ge 1 (val (hi X))) ltac:(lia)). reflexivity.
  Qed.
  Lemma int_nonneg f : (0 <= val (alower f))%Z -> (val (alower f) <= val (aupper f))%Z -> check dbg (always_nonneg dbg f) = Ret tt.
  Proof.
    intros H0 H. unfold check. destruct dbg eqn:Ed; [|reflexivity]. rewrite <- Ed. pose proof (int_assigned f H) as A. destruct f as [v|X]; cbn [always_nonneg alower aupper] in *.
    - cbn. rewrite (proj2 (Z.leb_le _ _) H0). reflexivity.
    - unfold rel_geq, rel_pre. rewrite A. cbn [aassigned andb]. replace (expects_debug dbg true) with (Ret tt) by (now destruct dbg). cbn [bind].
      unfold compare_leq. cbn [alower aupper]. rewrite le_0v, lt_v0.
      rewrite (proj2 (Z.leb_le 0 (val (hi X))) ltac:(lia)), (proj2 (Z.ltb_ge (val (lo X)) 0) ltac:(lia)). reflexivity.
  Qed.
  Lemma int_def z : (int_min w <= z <= int_max w)%Z -> exists n : int w, int_of w z = Ret n /\ val n = z.
  Proof. intros H. apply (int_of_def w) in H as (n & E). exists n. split; [exact E|]. now apply int_of_ret in E. Qed.
  Lemma int_sum a b : (0 <= val (alower a))%Z -> (val (alower a) <= val (aupper a))%Z -> (0 <= val (alower b))%Z -> (val (alower b) <= val (aupper b))%Z ->
    (0 < val (alower a) + val (alower b))%Z -> (val (aupper a) + val (aupper b) <= int_max w)%Z -> check dbg (always_positive_sum dbg a b) = Ret tt.
  Proof.
    intros A0 A1 B0 B1 H HM. unfold check. destruct dbg eqn:Ed; [|reflexivity]. rewrite <- Ed.
    assert (M : (int_min w <= 0)%Z) by (destruct (range_facts w Hw) as (-> & _ & P); lia).
    destruct (int_def (val (alower a) + val (alower b)) ltac:(lia)) as (l & El & Vl). destruct (int_def (val (aupper a) + val (aupper b)) ltac:(lia)) as (h & Eh & Vh).
    assert (G : iadd dbg a b = Ret (Ivl l h : ivl IN)).
    { unfold iadd. rewrite (int_assigned a A1), (int_assigned b B1). cbn [andb]. replace (expects_debug dbg true) with (Ret tt) by (now destruct dbg). cbn [bind IN n_float andb n_add]. rewrite El, Eh. cbn [bind].
      unfold mk. cbn. rewrite (proj2 (Z.ltb_ge (val h) (val l)) ltac:(lia)). reflexivity. }
    assert (K : (s <- iadd dbg a b ;; c <- rel_gt dbg (Iv s) (Sc n_zero) ;; Ret (always c)) = Ret true).
    { rewrite G. cbn [bind]. unfold rel_gt, rel_pre. rewrite (int_assigned (Iv (Ivl l h : ivl IN))) by (cbn; lia). cbn [aassigned andb]. replace (expects_debug dbg true) with (Ret tt) by (now destruct dbg). cbn [bind].
      unfold compare_lt. cbn [alower aupper lo hi]. rewrite lt_0v, le_v0.
      rewrite (proj2 (Z.ltb_lt 0 (val h)) ltac:(lia)), (proj2 (Z.leb_gt (val l) 0) ltac:(lia)). reflexivity. }
    destruct a as [v|X], b as [v'|Y]; cbn [always_positive_sum]; try (rewrite K; reflexivity). cbn [IN n_add]. cbn [alower] in El. rewrite El. cbn [bind]. rewrite lt_0v.
    rewrite (proj2 (Z.ltb_lt 0 (val l)) ltac:(lia)). reflexivity.
  Qed.
End IntChecks.

(** ** The common type *)
Section Core.
  Variables (prec emax : Z) (Hp : Prec_gt_0 prec) (He : Prec_lt_emax prec emax).
  Existing Instance Hp.
  Existing Instance He.
  Hypothesis P2 : (2 <= prec)%Z.
  Notation F := (binary_float prec emax).
  Notation FN := (float_num prec emax Hp He).
  Notation fexp := (SpecFloat.fexp prec emax).
  Notation rnd := (round radix2 fexp ZnearestE).
  Notation u := (bpow radix2 (- prec)).
  Local Instance valid_fexp : Valid_exp fexp := fexp_correct prec emax Hp.
  Notation D := (float_denotes prec emax Hp He).

  (** q v + g w *)
  Definition mixg (q g v w : F) : F := Bplus mode_NE (Bmult mode_NE q v) (Bmult mode_NE g w).
  Lemma mixg_near e B (q g v w : F) : u <= e <= / 4 -> 0 <= B <= bpow radix2 (emax - 3) -> is_finite q = true -> 0 <= B2R q <= 1 -> is_finite g = true -> 0 <= B2R g <= 1 -> Rabs (B2R g - (1 - B2R q)) <= e ->
    is_finite v = true -> Rabs (B2R v) <= B -> is_finite w = true -> Rabs (B2R w) <= B -> is_finite (mixg q g v w) = true /\ Rabs (B2R (mixg q g v w) - mixr (B2R q) (B2R v) (B2R w)) <= e * (6 * B + 3).
  Proof.
    intros He' HB Fq Hq Fg Hg N2 Fv Hv Fw Hw. pose proof (u_quarter prec P2) as U. pose proof (low_three prec emax He P2) as L3. pose proof (top_three emax) as T3.
    assert (A1 : Rabs (B2R q * B2R v) <= B). { rewrite Rabs_mult, (Rabs_pos_eq (B2R q)) by lra. pose proof (Rmult_le_compat (B2R q) 1 _ _ ltac:(lra) (Rabs_pos _) ltac:(lra) Hv). lra. }
    destruct (mult_real prec emax Hp He q v Fq Fv ltac:(lra)) as [G1 R1].
    assert (A3 : Rabs (B2R g * B2R w) <= B). { rewrite Rabs_mult, (Rabs_pos_eq (B2R g)) by lra. pose proof (Rmult_le_compat (B2R g) 1 _ _ ltac:(lra) (Rabs_pos _) ltac:(lra) Hw). lra. }
    destruct (mult_real prec emax Hp He g w Fg Fw ltac:(lra)) as [G3 R3].
    assert (EU : u * (B + 1) <= e * (B + 1)) by (apply Rmult_le_compat_r; lra).
    assert (D1 : Rabs (B2R (Bmult mode_NE q v) - B2R q * B2R v) <= e * (B + 1)).
    { rewrite R1. eapply Rle_trans; [apply rnd_error; assumption|]. eapply Rle_trans; [|exact EU]. apply Rmult_le_compat_l; lra. }
    assert (D3 : Rabs (B2R (Bmult mode_NE g w) - B2R g * B2R w) <= e * (B + 1)).
    { rewrite R3. eapply Rle_trans; [apply rnd_error; assumption|]. eapply Rle_trans; [|exact EU]. apply Rmult_le_compat_l; lra. }
    assert (D4 : Rabs (B2R g * B2R w - (1 - B2R q) * B2R w) <= e * B).
    { replace (B2R g * B2R w - (1 - B2R q) * B2R w) with ((B2R g - (1 - B2R q)) * B2R w) by ring. rewrite Rabs_mult. apply Rmult_le_compat; auto using Rabs_pos. }
    pose proof (mixr_abs (B2R q) (B2R v) (B2R w) B Hq Hv Hw) as A0.
    set (p1 := B2R (Bmult mode_NE q v)) in *. set (p2 := B2R (Bmult mode_NE g w)) in *. set (m := mixr (B2R q) (B2R v) (B2R w)) in *.
    assert (D5 : Rabs (p1 + p2 - m) <= e * (3 * B + 2)).
    { unfold m, mixr. replace (p1 + p2 - (B2R q * B2R v + (1 - B2R q) * B2R w)) with ((p1 - B2R q * B2R v) + ((p2 - B2R g * B2R w) + (B2R g * B2R w - (1 - B2R q) * B2R w))) by ring.
      eapply Rle_trans; [apply Rabs_triang|]. pose proof (Rabs_triang (p2 - B2R g * B2R w) (B2R g * B2R w - (1 - B2R q) * B2R w)). lra. }
    assert (UB : e * B <= / 4 * B) by (apply Rmult_le_compat_r; lra). assert (UB0 : 0 <= e * B) by (apply Rmult_le_pos; lra).
    assert (A5 : Rabs (p1 + p2) <= B + e * (3 * B + 2)). { replace (p1 + p2) with ((p1 + p2 - m) + m) by ring. eapply Rle_trans; [apply Rabs_triang|]. lra. }
    assert (UU : e * (3 * B + 2) <= B + 1) by lra.
    destruct (add_real prec emax Hp He (Bmult mode_NE q v) (Bmult mode_NE g w) G1 G3) as (G5 & _ & S5). { fold p1 p2. lra. }
    fold p1 p2 in S5. split; [exact G5|]. unfold mixg. set (z := B2R (Bplus mode_NE (Bmult mode_NE q v) (Bmult mode_NE g w))) in *.
    replace (z - m) with ((z - (p1 + p2)) + (p1 + p2 - m)) by ring. eapply Rle_trans; [apply Rabs_triang|].
    assert (S6 : u * Rabs (p1 + p2) <= e * (2 * B + 1)) by (apply Rmult_le_compat; try lra; apply Rabs_pos). lra.
  Qed.
  Lemma rnd_B2R (v : F) : rnd (B2R v) = B2R v.
  Proof. apply round_generic; [auto with typeclass_instances|apply generic_format_B2R]. Qed.
  Lemma mixg_exact B (q g v w : F) : 0 <= B <= bpow radix2 (emax - 3) -> is_finite q = true -> is_finite g = true -> (B2R q = 0 /\ B2R g = 1 \/ B2R q = 1 /\ B2R g = 0) ->
    is_finite v = true -> Rabs (B2R v) <= B -> is_finite w = true -> Rabs (B2R w) <= B -> is_finite (mixg q g v w) = true /\ B2R (mixg q g v w) = mixr (B2R q) (B2R v) (B2R w).
  Proof.
    intros HB Fq Fg H Fv Hv Fw Hw. pose proof (top_three emax) as T3. unfold mixg.
    assert (P : forall (t : F), Rabs (B2R t) <= B -> Rabs (0 * B2R t) <= bpow radix2 (emax - 1) /\ Rabs (1 * B2R t) <= bpow radix2 (emax - 1)).
    { intros t Ht. rewrite Rmult_0_l, Rmult_1_l, Rabs_R0. lra. }
    destruct (P v Hv) as [V0 V1], (P w Hw) as [W0 W1].
    assert (M1 : Rabs (B2R q * B2R v) <= bpow radix2 (emax - 1)) by (destruct H as [[-> _]|[-> _]]; assumption).
    assert (M2 : Rabs (B2R g * B2R w) <= bpow radix2 (emax - 1)) by (destruct H as [[_ ->]|[_ ->]]; assumption).
    destruct (mult_real prec emax Hp He q v Fq Fv M1) as [G1 R1], (mult_real prec emax Hp He g w Fg Fw M2) as [G2 R2].
    assert (E : (B2R (Bmult mode_NE q v) = 0 /\ B2R (Bmult mode_NE g w) = B2R w) \/ (B2R (Bmult mode_NE q v) = B2R v /\ B2R (Bmult mode_NE g w) = 0)).
    { rewrite R1, R2. destruct H as [[-> ->]|[-> ->]]; [left|right]; rewrite Rmult_0_l, Rmult_1_l, rnd_B2R, round_0 by auto with typeclass_instances; auto. }
    destruct (add_real prec emax Hp He (Bmult mode_NE q v) (Bmult mode_NE g w) G1 G2) as (G3 & R3 & _). { destruct E as [[-> ->]|[-> ->]]; rewrite ?Rplus_0_l, ?Rplus_0_r; lra. }
    split; [exact G3|]. rewrite R3. unfold mixr. destruct H as [[E1 E2]|[E1 E2]]; rewrite E1, E2 in *; rewrite R1, R2; rewrite !Rmult_0_l, !Rmult_1_l, rnd_B2R, round_0 by auto with typeclass_instances; rewrite ?Rplus_0_l, ?Rplus_0_r, rnd_B2R; lra.
  Qed.

  (** The end points of the result. *)
  Lemma ends_hull d (f x y : arg FN) (zl zh : F) : finite_arg f -> finite_arg x -> finite_arg y -> 0 <= B2R (alower f) -> B2R (aupper f) <= 1 -> is_finite zl = true -> is_finite zh = true ->
    Rabs (B2R zl - mixr (if Rle_bool (B2R (alower y)) (B2R (alower x)) then B2R (alower f) else B2R (aupper f)) (B2R (alower x)) (B2R (alower y))) <= d ->
    Rabs (B2R zh - mixr (if Rle_bool (B2R (aupper y)) (B2R (aupper x)) then B2R (aupper f) else B2R (alower f)) (B2R (aupper x)) (B2R (aupper y))) <= d ->
    exists Z, @from_unordered_bounds FN zl zh = Ret Z /\ finite_arg (Iv Z)
    /\ (forall p r s, within f p -> within x r -> within y s -> B2R (lo Z) - d <= mixr p r s <= B2R (hi Z) + d)
    /\ (exists q, (q = B2R (alower f) \/ q = B2R (aupper f)) /\ exists r s, within x r /\ within y s /\ Rabs (mixr q r s - B2R (lo Z)) <= d)
    /\ (exists q, (q = B2R (alower f) \/ q = B2R (aupper f)) /\ exists r s, within x r /\ within y s /\ Rabs (mixr q r s - B2R (hi Z)) <= d).
  Proof.
    intros (Ff1 & Ff2 & Of) (Fx1 & Fx2 & Ox) (Fy1 & Fy2 & Oy) H0 H1 G1 G2. set (ql := if Rle_bool _ _ then B2R (alower f) else B2R (aupper f)). set (qh := if Rle_bool _ _ then B2R (aupper f) else B2R (alower f)). intros N1 N2.
    rewrite (fub_real prec emax Hp He) by assumption.
    destruct (omin_real prec emax Hp He zl zh G1 G2) as [A1 A2], (omax_real prec emax Hp He zl zh G1 G2) as [B1 B2].
    assert (ML : forall p r s, within f p -> within x r -> within y s -> mixr ql (B2R (alower x)) (B2R (alower y)) <= mixr p r s) by (intros p r s Wp Wr Ws; apply mixr_low; unfold within in *; lra).
    assert (MH : forall p r s, within f p -> within x r -> within y s -> mixr p r s <= mixr qh (B2R (aupper x)) (B2R (aupper y))) by (intros p r s Wp Wr Ws; apply mixr_high; unfold within in *; lra).
    assert (LH : mixr ql (B2R (alower x)) (B2R (alower y)) <= mixr qh (B2R (aupper x)) (B2R (aupper y))).
    { apply ML; unfold within; [unfold qh; destruct_le|..]; lra. }
    apply Rabs_le_inv in N1, N2.
    eexists. split; [reflexivity|]. split; [split; [exact A1|split; [exact B1|]]; cbn [alower aupper lo hi]; setoid_rewrite A2; setoid_rewrite B2; unfold Rmin, Rmax; repeat destruct Rle_dec; lra|].
    cbn [lo hi]. setoid_rewrite A2. setoid_rewrite B2. split; [|split].
    - intros p r s Wp Wr Ws. specialize (ML p r s Wp Wr Ws). specialize (MH p r s Wp Wr Ws). unfold Rmin, Rmax; repeat destruct Rle_dec; lra.
    - exists ql. split; [unfold ql; destruct_le; auto|]. exists (B2R (alower x)), (B2R (alower y)). split; [unfold within; lra|]. split; [unfold within; lra|].
      apply Rabs_le. unfold Rmin; destruct Rle_dec; lra.
    - exists qh. split; [unfold qh; destruct_le; auto|]. exists (B2R (aupper x)), (B2R (aupper y)). split; [unfold within; lra|]. split; [unfold within; lra|].
      apply Rabs_le. unfold Rmax; destruct Rle_dec; lra.
  Qed.

  Section Operand.
    Context {W : num} (c : W -> FN) (dbg : bool).
    (** Any type of the fraction, if q v + (1 - q) w is computed with an error of at most [d]. *)
    Lemma mixed_ends d (f : arg W) (gl gu : W) (x y : arg FN) : aassigned f = true -> check dbg (always_fraction dbg f) = Ret tt ->
      n_sub n_one (alower f) = Ret gl -> n_sub n_one (aupper f) = Ret gu -> finite_arg (conv_arg c f) -> finite_arg x -> finite_arg y ->
      0 <= B2R (c (alower f) : F) -> B2R (c (aupper f) : F) <= 1 ->
      (forall q g, (q = alower f /\ g = gl) \/ (q = aupper f /\ g = gu) -> forall v w : F, (v = alower x /\ w = alower y) \/ (v = aupper x /\ w = aupper y) ->
        is_finite (mixg (c q) (c g) v w) = true /\ Rabs (B2R (mixg (c q) (c g) v w) - mixr (B2R (c q : F)) (B2R v) (B2R w)) <= d) ->
      exists Z, mixed_blend_fractions c dbg f x y = Ret Z /\ finite_arg (Iv Z)
      /\ (forall p r s, within (conv_arg c f) p -> within x r -> within y s -> B2R (lo Z) - d <= mixr p r s <= B2R (hi Z) + d)
      /\ (exists q, (q = B2R (c (alower f) : F) \/ q = B2R (c (aupper f) : F)) /\ exists r s, within x r /\ within y s /\ Rabs (mixr q r s - B2R (lo Z)) <= d)
      /\ (exists q, (q = B2R (c (alower f) : F) \/ q = B2R (c (aupper f) : F)) /\ exists r s, within x r /\ within y s /\ Rabs (mixr q r s - B2R (hi Z)) <= d).
    Proof.
      intros Af Cf Hl Hu Ff Fx Fy H0 H1 HE. unfold mixed_blend_fractions. pose proof (denotes_ord D) as HO.
      rewrite Af, (aproper_assigned HO x), (aproper_assigned HO y) by (apply (finite_proper prec emax Hp He); assumption). cbn [andb].
      replace (expects_debug dbg true) with (Ret tt) by (now destruct dbg). cbn [bind]. rewrite Cf. cbn [bind].
      assert (EL : @o_le FN (alower y) (alower x) = Rle_bool (B2R (alower y)) (B2R (alower x))) by (cbn; apply Bleb_correct; [apply Fy|apply Fx]).
      assert (EU : @o_le FN (aupper y) (aupper x) = Rle_bool (B2R (aupper y)) (B2R (aupper x))) by (cbn; apply Bleb_correct; [apply Fy|apply Fx]).
      rewrite EL, EU. set (bl := Rle_bool (B2R (alower y)) (B2R (alower x))). set (bh := Rle_bool (B2R (aupper y)) (B2R (aupper x))).
      set (gl' := if bl then gl else gu). set (gh' := if bh then gu else gl). set (ql := if bl then alower f else aupper f). set (qh := if bh then aupper f else alower f).
      assert (E1 : n_sub n_one ql = Ret gl') by (unfold ql, gl'; now destruct bl). assert (E2 : n_sub n_one qh = Ret gh') by (unfold qh, gh'; now destruct bh).
      rewrite E1, E2. cbn [n_add n_sub n_mul FN bind].
      destruct (HE ql gl' ltac:(unfold ql, gl'; destruct bl; auto) (alower x) (alower y) ltac:(auto)) as [G1 N1]. destruct (HE qh gh' ltac:(unfold qh, gh'; destruct bh; auto) (aupper x) (aupper y) ltac:(auto)) as [G2 N2].
      pose proof (ends_hull d (conv_arg c f) x y _ _ Ff Fx Fy ltac:(now rewrite c_lower) ltac:(now rewrite c_upper) G1 G2) as K. fold bl bh in K. rewrite !c_lower, !c_upper in K.
      replace (if bl then B2R (c (alower f) : F) else B2R (c (aupper f) : F)) with (B2R (c ql : F)) in K by (unfold ql; now destruct bl).
      replace (if bh then B2R (c (aupper f) : F) else B2R (c (alower f) : F)) with (B2R (c qh : F)) in K by (unfold qh; now destruct bh). exact (K N1 N2).
    Qed.
  End Operand.

  (** ** Integer operands *)
  Section Int.
    Variables (w : Z) (Hw : (2 <= w)%Z) (dbg : bool).
    Notation IN := (int_num w Hw).
    Notation c := (int_to_float w prec emax Hp He).
    Lemma small_int (n : int w) : (0 <= val n <= 1)%Z -> is_finite (c n) = true /\ B2R (c n) = IZR (val n).
    Proof.
      intros H. pose proof (int_to_float_x w prec emax Hp He n) as E. assert (K : (val n = 0 \/ val n = 1)%Z) by lia.
      assert (R : rd prec emax (IZR (val n)) = XFin (IZR (val n))).
      { unfold rd. assert (Q : rnd (IZR (val n)) = IZR (val n)) by (destruct K as [-> | ->]; [apply round_0; auto with typeclass_instances|now apply rnd_one]). rewrite Q.
        rewrite Rlt_bool_true; [reflexivity|]. apply Rle_lt_trans with (bpow radix2 0); [cbn; destruct K as [-> | ->]; [rewrite Rabs_R0|rewrite Rabs_R1]; lra|apply bpow_lt; pose proof (emax3 prec emax He P2); lia]. }
      rewrite R in E. now apply f2x_fin in E.
    Qed.
    Lemma int_ends B (f : arg IN) (x y : arg FN) : (0 <= val (alower f))%Z -> (val (alower f) <= val (aupper f))%Z -> (val (aupper f) <= 1)%Z -> finite_arg x -> finite_arg y ->
      0 <= B <= bpow radix2 (emax - 3) -> bounded_by B x -> bounded_by B y -> near_range3 0 (fun p r s => p * r + (1 - p) * s) (mixed_blend_fractions (W := IN) (c : IN -> FN) dbg f x y) (conv_arg (c : IN -> FN) f) x y.
    Proof.
      intros H0 H H1 Fx Fy HB Bx By. destruct (small_int (alower f) ltac:(lia)) as [Fl El]. destruct (small_int (aupper f) ltac:(lia)) as [Fu Eu].
      assert (M : (int_min w <= 0 /\ 1 <= int_max w)%Z) by (destruct (range_facts w Hw) as (-> & -> & P); lia).
      destruct (int_def w (1 - val (alower f)) ltac:(lia)) as (gl & Gl & Vl). destruct (int_def w (1 - val (aupper f)) ltac:(lia)) as (gu & Gu & Vu).
      assert (Lf : B2R (c (alower f)) <= B2R (c (aupper f))) by (setoid_rewrite El; setoid_rewrite Eu; now apply IZR_le).
      destruct (mixed_ends (W := IN) (c : IN -> FN) dbg 0 f gl gu x y) as (Z & E & FZ & K1 & (q & Hq & r & s & K2) & (q' & Hq' & r' & s' & K3)); try assumption.
      - now apply int_assigned.
      - now apply int_fraction.
      - unfold finite_arg. rewrite c_lower, c_upper. auto.
      - setoid_rewrite El. now apply IZR_le.
      - setoid_rewrite Eu. now apply IZR_le.
      - intros q g Hqg v0 w0 Hvw. assert (Q : (0 <= val q <= 1)%Z /\ (val g = 1 - val q)%Z) by (destruct Hqg as [[-> ->]|[-> ->]]; lia). destruct Q as [Q1 Q2].
        destruct (small_int q Q1) as [Fq Eq]. destruct (small_int g ltac:(lia)) as [Fg Eg].
        assert (FV : is_finite v0 = true /\ Rabs (B2R v0) <= B /\ is_finite w0 = true /\ Rabs (B2R w0) <= B).
        { destruct Fx as (X1 & X2 & _), Fy as (Y1 & Y2 & _), Bx as [X3 X4], By as [Y3 Y4]. destruct Hvw as [[-> ->]|[-> ->]]; auto. }
        destruct FV as (F1 & F2 & F3 & F4). destruct (mixg_exact B (c q) (c g) v0 w0 HB Fq Fg) as [G1 G2]; try assumption.
        { rewrite Eq, Eg, Q2. assert (K : (val q = 0 \/ val q = 1)%Z) by lia. destruct K as [-> | ->]; [left|right]; auto. }
        split; [exact G1|]. setoid_rewrite G2. unfold Rminus. rewrite Rplus_opp_r, Rabs_R0. lra.
      - exists Z. split; [exact E|]. split; [exact FZ|]. split; [exact K1|]. split; [exists q, r, s|exists q', r', s']; (split; [unfold within; rewrite c_lower, c_upper; destruct Hq, Hq'; subst; lra|assumption]).
    Qed.

    (** 1 / (1 + c / a) of integers: 1 if c < a, otherwise 0. *)
    Lemma int_share (n a : int w) : (0 <= val n)%Z -> (0 < val a)%Z -> (val n < int_max w)%Z ->
      exists q d r : int w, @n_div IN n a = Ret q /\ @n_add IN n_one q = Ret d /\ @n_div IN n_one d = Ret r /\ val r = (if (val n <? val a)%Z then 1 else 0)%Z.
    Proof.
      intros Hn Ha Hm. assert (M : (int_min w <= 0 /\ 1 <= int_max w)%Z) by (destruct (range_facts w Hw) as (-> & -> & P); lia).
      assert (Q : (0 <= Z.quot (val n) (val a) <= val n)%Z). { split; [apply Z.quot_pos; lia|]. rewrite Z.quot_div_nonneg by lia. apply Z.div_le_upper_bound; [lia|]. nia. }
      destruct (int_def w (Z.quot (val n) (val a)) ltac:(lia)) as (q & Eq & Vq). destruct (int_def w (1 + val q) ltac:(lia)) as (d & Ed & Vd).
      assert (R : (Z.quot 1 (val d) = if (val n <? val a)%Z then 1 else 0)%Z).
      { rewrite Vd, Vq. destruct (Z.ltb_spec (val n) (val a)) as [K|K]; [rewrite (Z.quot_small (val n)) by lia; reflexivity|]. apply Z.quot_small.
        assert (1 <= Z.quot (val n) (val a))%Z by (rewrite Z.quot_div_nonneg by lia; apply Z.div_le_lower_bound; lia). lia. }
      destruct (int_def w (Z.quot 1 (val d))) as (r & Er & Vr). { rewrite R. destruct Z.ltb; lia. }
      exists q, d, r. cbn [IN n_div n_add n_one]. change (val (int_const w 1 _)) with 1%Z. rewrite (proj2 (Z.eqb_neq (val a) 0) ltac:(lia)), (proj2 (Z.eqb_neq (val d) 0) ltac:(lia)). rewrite Eq, Ed, Er. rewrite <- R. auto.
    Qed.
    Definition int_fractions (a b : arg IN) : arg FN :=
      Iv (Ivl (if (val (aupper b) <? val (alower a))%Z then n_one else n_zero) (if (val (alower b) <? val (aupper a))%Z then n_one else n_zero)).
    Lemma int_linear B (a b : arg IN) (x y : arg FN) : (0 < val (alower a))%Z -> (val (alower a) <= val (aupper a))%Z -> (0 <= val (alower b))%Z -> (val (alower b) <= val (aupper b))%Z ->
      (val (aupper a) + val (aupper b) <= int_max w)%Z -> finite_arg x -> finite_arg y ->
      0 <= B <= bpow radix2 (emax - 3) -> bounded_by B x -> bounded_by B y -> near_range3 0 (fun p r s => p * r + (1 - p) * s) (mixed_blend_linear (W := IN) (c : IN -> FN) dbg a b x y) (int_fractions a b) x y.
    Proof.
      intros A0 A1 B0 B1 HM Fx Fy HB Bx By. pose proof (denotes_ord D) as HO. destruct (int_share (aupper b) (alower a) ltac:(lia) A0 ltac:(lia)) as (q & d & r & E1 & E2 & E3 & V1).
      destruct (int_share (alower b) (aupper a) B0 ltac:(lia) ltac:(lia)) as (q' & d' & r' & E1' & E2' & E3' & V1').
      assert (O : (0 <= val r <= val r')%Z /\ (val r' <= 1)%Z) by (rewrite V1, V1'; destruct (Z.ltb_spec (val (aupper b)) (val (alower a))), (Z.ltb_spec (val (alower b)) (val (aupper a))); lia).
      assert (EQ : mixed_blend_linear (W := IN) (c : IN -> FN) dbg a b x y = mixed_blend_fractions (W := IN) (c : IN -> FN) dbg (Iv (Ivl r r' : ivl IN)) x y).
      { unfold mixed_blend_linear. rewrite (int_assigned w Hw a A1), (int_assigned w Hw b B1), (aproper_assigned HO x), (aproper_assigned HO y) by (apply (finite_proper prec emax Hp He); assumption). cbn [andb].
        replace (expects_debug dbg true) with (Ret tt) by (now destruct dbg). cbn [bind]. rewrite !(int_nonneg w Hw) by (assumption || lia). rewrite (int_sum w Hw) by (assumption || lia). cbn [bind].
        rewrite E1. cbn [bind]. rewrite E2. cbn [bind]. rewrite E3. cbn [bind]. rewrite E1'. cbn [bind]. rewrite E2'. cbn [bind]. rewrite E3'. cbn [bind].
        unfold mk. cbn. rewrite (proj2 (Z.ltb_ge (val r') (val r)) ltac:(lia)). reflexivity. }
      rewrite EQ. pose proof (int_ends B (Iv (Ivl r r' : ivl IN)) x y ltac:(cbn; lia) ltac:(cbn; lia) ltac:(cbn; lia) Fx Fy HB Bx By) as (Z & E & FZ & K).
      destruct (small_int r ltac:(lia)) as [_ Er], (small_int r' ltac:(lia)) as [_ Er'].
      assert (WE : forall p, within (conv_arg (c : IN -> FN) (Iv (Ivl r r' : ivl IN))) p <-> within (int_fractions a b) p).
      { intros p. unfold within, int_fractions. cbn [conv_arg alower aupper lo hi]. setoid_rewrite Er. setoid_rewrite Er'. rewrite V1, V1'. destruct (one_real prec emax Hp He) as [_ O1].
        destruct (val (aupper b) <? val (alower a))%Z, (val (alower b) <? val (aupper a))%Z; setoid_rewrite O1 || idtac; reflexivity. }
      exists Z. split; [exact E|]. split; [exact FZ|]. setoid_rewrite <- WE. exact K.
    Qed.

    (** Undefined behaviour. *)
    Lemma int_prefix (a b : arg IN) (x y : arg FN) : aproper x -> aproper y -> (0 <= val (alower a))%Z -> (val (alower a) <= val (aupper a))%Z -> (0 <= val (alower b))%Z -> (val (alower b) <= val (aupper b))%Z ->
      (0 < val (alower a) + val (alower b))%Z -> (val (aupper a) + val (aupper b) <= int_max w)%Z -> (val (alower a) = 0)%Z -> mixed_blend_linear (W := IN) (c : IN -> FN) dbg a b x y = UB.
    Proof.
      intros Px Py A0 A1 B0 B1 Hs HM HA. pose proof (denotes_ord D) as HO. unfold mixed_blend_linear. rewrite (int_assigned w Hw a A1), (int_assigned w Hw b B1), (aproper_assigned HO x Px), (aproper_assigned HO y Py). cbn [andb].
      replace (expects_debug dbg true) with (Ret tt) by (now destruct dbg). cbn [bind]. rewrite !(int_nonneg w Hw) by assumption. rewrite (int_sum w Hw) by assumption. cbn [bind].
      change (@n_div IN (aupper b) (alower a)) with (if (val (alower a) =? 0)%Z then UB else int_of w (Z.quot (val (aupper b)) (val (alower a)))). rewrite HA. reflexivity.
    Qed.
    Lemma int_of_over z : (int_max w < z)%Z -> int_of w z = UB.
    Proof. intros H. unfold int_of. destruct bool_dec as [K|K]; [|reflexivity]. exfalso. unfold in_range in K. apply andb_prop in K as [_ K]. apply Z.leb_le in K. lia. Qed.
    Lemma int_overflow (a b : int w) (x y : arg FN) : aproper x -> aproper y -> val a = 1%Z -> val b = int_max w -> mixed_blend_linear (W := IN) (c : IN -> FN) dbg (Sc (a : IN)) (Sc (b : IN)) x y = UB.
    Proof.
      intros Px Py Ha Hb. pose proof (denotes_ord D) as HO. assert (M : (int_min w <= 0 /\ 1 <= int_max w)%Z) by (destruct (range_facts w Hw) as (-> & -> & P); lia).
      unfold mixed_blend_linear. rewrite (aproper_assigned HO x Px), (aproper_assigned HO y Py). cbn [aassigned andb].
      replace (expects_debug dbg true) with (Ret tt) by (now destruct dbg). cbn [bind]. rewrite !(int_nonneg w Hw) by (cbn; lia). cbn [bind].
      assert (O : @n_add IN a b = UB) by (apply (int_of_over (val a + val b)); lia). unfold check, always_positive_sum. rewrite O. destruct dbg; cbn [bind]; [reflexivity|]. cbn [alower aupper].
      assert (E : @n_div IN b a = Ret b). { change (@n_div IN b a) with (if (val a =? 0)%Z then UB else int_of w (Z.quot (val b) (val a))). rewrite Ha. change (1 =? 0)%Z with false. cbv iota. rewrite Z.quot_1_r. apply int_of_ret. reflexivity. } rewrite E. cbn [bind].
      replace (@n_add IN n_one b) with (@UB IN); [reflexivity|]. symmetry. apply (int_of_over (1 + val b)). lia.
    Qed.
  End Int.

  (** ** Operands of a narrower floating-point type *)
  Section Narrow.
    Variables (prec' emax' : Z) (Hp' : Prec_gt_0 prec') (He' : Prec_lt_emax prec' emax') (dbg : bool).
    Hypothesis P2' : (2 <= prec')%Z.
    Hypothesis Lp : (prec' <= prec)%Z.
    Hypothesis Le : (emax' <= emax)%Z.
    Notation G := (binary_float prec' emax').
    Notation WN := (float_num prec' emax' Hp' He').
    Notation e := (bpow radix2 (- prec')).
    Notation c := (float_conv prec' emax' prec emax Hp He).
    Notation D' := (float_denotes prec' emax' Hp' He').
    Lemma conv_real (a : G) : is_finite a = true -> is_finite (c a) = true /\ B2R (c a) = B2R a.
    Proof. intros H. pose proof (float_conv_exact prec' emax' prec emax Hp' Hp He a Lp Le) as E. rewrite (f2x_finite _ _ _ H) in E. now apply f2x_fin in E. Qed.
    Lemma e_bounds : u <= e <= / 4.
    Proof. split; [apply bpow_le; lia|]. apply (u_quarter prec' P2'). Qed.
    Lemma narrow_ends B (f : arg WN) (x y : arg FN) : 0 <= B <= bpow radix2 (emax - 3) -> finite_arg f -> finite_arg x -> finite_arg y -> 0 <= B2R (alower f : G) -> B2R (aupper f : G) <= 1 ->
      bounded_by B x -> bounded_by B y -> exists Z, mixed_blend_fractions (W := WN) (c : WN -> FN) dbg f x y = Ret Z /\ finite_arg (Iv Z)
      /\ (forall p r s, within f p -> within x r -> within y s -> B2R (lo Z) - e * (6 * B + 3) <= mixr p r s <= B2R (hi Z) + e * (6 * B + 3))
      /\ (exists q, (q = B2R (alower f : G) \/ q = B2R (aupper f : G)) /\ exists r s, within x r /\ within y s /\ Rabs (mixr q r s - B2R (lo Z)) <= e * (6 * B + 3))
      /\ (exists q, (q = B2R (alower f : G) \/ q = B2R (aupper f : G)) /\ exists r s, within x r /\ within y s /\ Rabs (mixr q r s - B2R (hi Z)) <= e * (6 * B + 3)).
    Proof.
      intros HB Ff Fx Fy H0 H1 Bx By. pose proof e_bounds as EB. pose proof (denotes_ord D') as HO. destruct Ff as (Ff1 & Ff2 & Of). destruct (conv_real (alower f) Ff1) as [Fl El]. destruct (conv_real (aupper f) Ff2) as [Fu Eu].
      destruct (one_real prec' emax' Hp' He') as [F1 E1]. pose proof (finite_proper prec' emax' Hp' He' f (conj Ff1 (conj Ff2 Of))) as Pf.
      assert (SB : forall q : G, is_finite q = true -> 0 <= B2R q <= 1 -> is_finite (Bminus mode_NE (@n_one WN : G) q) = true /\ 0 <= B2R (Bminus mode_NE (@n_one WN : G) q) <= 1 /\ Rabs (B2R (Bminus mode_NE (@n_one WN : G) q) - (1 - B2R q)) <= e).
      { intros q Fq Hq. pose proof (low_three prec' emax' He' P2'). pose proof (top_three emax'). destruct (sub_real prec' emax' Hp' He' (@n_one WN) q F1 Fq) as (G2 & R2 & S2). { rewrite E1, Rabs_pos_eq by lra. lra. }
        rewrite E1 in R2, S2. split; [exact G2|]. split; [setoid_rewrite R2; apply (rnd_unit prec' emax' Hp' He' P2'); lra|]. eapply Rle_trans; [exact S2|]. rewrite Rabs_pos_eq by lra.
        pose proof (Rmult_le_compat_l e (1 - B2R q) 1 (bpow_ge_0 _ _) ltac:(lra)). lra. }
      pose proof (mixed_ends (W := WN) (c : WN -> FN) dbg (e * (6 * B + 3)) f (Bminus mode_NE (@n_one WN : G) (alower f)) (Bminus mode_NE (@n_one WN : G) (aupper f)) x y (aproper_assigned HO f Pf)) as K.
      setoid_rewrite El in K. setoid_rewrite Eu in K.
      destruct K as (Z & E & FZ & K1 & K2 & K3); try assumption; try reflexivity.
      - apply (fraction_check D' dbg f Pf); [apply (le_B2R prec' emax' Hp' He' n_zero); [reflexivity|exact Ff1|exact H0]|]. apply (le_B2R prec' emax' Hp' He'); [exact Ff2|exact F1|]. setoid_rewrite E1. exact H1.
      - unfold finite_arg. rewrite c_lower, c_upper. split; [exact Fl|]. split; [exact Fu|]. setoid_rewrite El. setoid_rewrite Eu. exact Of.
      - intros q g Hqg v w Hvw. assert (Q : exists q' : G, q = q' /\ is_finite q' = true /\ 0 <= B2R q' <= 1 /\ g = Bminus mode_NE (@n_one WN : G) q') by (destruct Hqg as [[-> ->]|[-> ->]]; eexists; (split; [reflexivity|]); (split; [assumption|]); (split; [lra|reflexivity])).
        destruct Q as (q' & -> & Fq & Hq & ->). destruct (SB q' Fq Hq) as (G2 & V2 & N2). destruct (conv_real q' Fq) as [Fq' Eq'], (conv_real _ G2) as [Fg' Eg'].
        assert (FV : is_finite v = true /\ Rabs (B2R v) <= B /\ is_finite w = true /\ Rabs (B2R w) <= B).
        { destruct Fx as (X1 & X2 & _), Fy as (Y1 & Y2 & _), Bx as [X3 X4], By as [Y3 Y4]. destruct Hvw as [[-> ->]|[-> ->]]; auto. }
        destruct FV as (V1 & V3 & V4 & V5). apply (mixg_near e B); try assumption; setoid_rewrite Eq' || setoid_rewrite Eg'; try assumption. setoid_rewrite Eg'. exact N2.
      - exists Z. split; [exact E|]. split; [exact FZ|]. split; [|split; assumption]. intros p r s Wp. apply K1. unfold within. rewrite c_lower, c_upper. setoid_rewrite El. setoid_rewrite Eu. exact Wp.
    Qed.
    Lemma narrow_fractions B (f : arg WN) (x y : arg FN) : 0 <= B <= bpow radix2 (emax - 3) -> finite_arg f -> finite_arg x -> finite_arg y -> 0 <= B2R (alower f : G) -> B2R (aupper f : G) <= 1 ->
      bounded_by B x -> bounded_by B y -> near_range3 (e * (6 * B + 3)) (fun p r s => p * r + (1 - p) * s) (mixed_blend_fractions (W := WN) (c : WN -> FN) dbg f x y) (conv_arg (c : WN -> FN) f) x y.
    Proof.
      intros HB Ff Fx Fy H0 H1 Bx By. destruct (narrow_ends B f x y HB Ff Fx Fy H0 H1 Bx By) as (Z & E & FZ & K1 & (q & Hq & r & s & K2) & (q' & Hq' & r' & s' & K3)). destruct Ff as (F1 & F2 & Of).
      destruct (conv_real (alower f) F1) as [_ El]. destruct (conv_real (aupper f) F2) as [_ Eu].
      assert (WE : forall p, within (conv_arg (c : WN -> FN) f) p <-> within f p) by (intros p; unfold within; rewrite c_lower, c_upper; setoid_rewrite El; setoid_rewrite Eu; reflexivity).
      exists Z. split; [exact E|]. split; [exact FZ|]. setoid_rewrite WE. split; [exact K1|]. split; [exists q, r, s|exists q', r', s']; (split; [unfold within; destruct Hq, Hq'; subst; lra|assumption]).
    Qed.
    Lemma narrow_linear B (a b : arg WN) (x y : arg FN) : 0 <= B <= bpow radix2 (emax - 3) -> finite_arg a -> finite_arg b -> finite_arg x -> finite_arg y ->
      0 <= B2R (alower a : G) -> 0 <= B2R (alower b : G) -> 0 < B2R (alower a : G) + B2R (alower b : G) -> bounded_by B x -> bounded_by B y ->
      near_range4 (e * (16 * B + 3)) (fun p q r s => (p * r + q * s) / (p + q)) (mixed_blend_linear (W := WN) (c : WN -> FN) dbg a b x y) (conv_arg (c : WN -> FN) a) (conv_arg (c : WN -> FN) b) x y.
    Proof.
      intros HB Fa Fb Fx Fy Ha Hb Hs Bx By. pose proof (denotes_ord D) as HO. pose proof (denotes_ord D') as HO'. pose proof e_bounds as U.
      pose proof (finite_proper prec' emax' Hp' He' a Fa) as Pa. pose proof (finite_proper prec' emax' Hp' He' b Fb) as Pb. pose proof (finite_proper prec emax Hp He x Fx) as Px. pose proof (finite_proper prec emax Hp He y Fy) as Py.
      assert (Na : nonneg (alower a)) by (apply le_zero; [apply Fa|exact Ha]). assert (Nb : nonneg (alower b)) by (apply le_zero; [apply Fb|exact Hb]).
      pose proof (sum_positive prec' emax' Hp' He' (alower a) (alower b) (proj1 Fa) (proj1 Fb) Ha Hb Hs) as Sp.
      assert (P1 : aproper (Sc (@n_one WN))) by (apply (ok_one D')).
      destruct (blend_linear_always D' (float_mdenotes prec' emax' Hp' He' (nearest_libm prec' emax' Hp' He')) dbg a b _ _ _ Pa Pb P1 P1 Na Nb eq_refl Sp) as (Z0 & E0).
      set (ql := shf prec' emax' Hp' He' (alower a) (aupper b)) in *. set (qh := shf prec' emax' Hp' He' (aupper a) (alower b)) in *.
      assert (EQ : forall t, iblend_linear dbg a b t t = (F <- (expects_debug dbg (aassigned a && aassigned b && aassigned t && aassigned t) ;;; @mk WN ql qh) ;; iblend_fractions dbg (Iv F) t t)).
      { intros t. unfold iblend_linear. destruct (expects_debug dbg _); cbn [bind]; try reflexivity. rewrite !(nonneg_check D') by assumption. rewrite (sum_check D' dbg a b _ Pa Pb Na Nb eq_refl Sp). reflexivity. }
      assert (EQ' : mixed_blend_linear (W := WN) (c : WN -> FN) dbg a b x y = (F <- @mk WN ql qh ;; mixed_blend_fractions (W := WN) (c : WN -> FN) dbg (Iv F) x y)).
      { unfold mixed_blend_linear. rewrite (aproper_assigned HO' a Pa), (aproper_assigned HO' b Pb), (aproper_assigned HO x Px), (aproper_assigned HO y Py). cbn [andb].
        replace (expects_debug dbg true) with (Ret tt) by (now destruct dbg). cbn [bind]. rewrite !(nonneg_check D') by assumption. rewrite (sum_check D' dbg a b _ Pa Pb Na Nb eq_refl Sp). reflexivity. }
      rewrite EQ in E0. rewrite EQ'. destruct Fa as (Fa1 & Fa2 & Oa), Fb as (Fb1 & Fb2 & Ob).
      destruct (share_near prec' emax' Hp' He' P2' (alower a) (aupper b) Fa1 Fb2 Ha ltac:(lra) ltac:(lra)) as (G1 & R1 & N1). destruct (share_near prec' emax' Hp' He' P2' (aupper a) (alower b) Fa2 Fb1 ltac:(lra) Hb ltac:(lra)) as (G2 & R2 & N2).
      fold ql in G1, R1, N1. fold qh in G2, R2, N2.
      assert (O : B2R ql <= B2R qh).
      { destruct (mk_fails prec' emax' Hp' He' ql qh G1 G2) as [[_ K]|[K _]]; [exact K|exfalso]. rewrite K in E0. destruct (expects_debug dbg _) in E0; discriminate. }
      rewrite (mk_real prec' emax' Hp' He' ql qh G1 G2 O). cbn [bind].
      destruct (narrow_ends B (Iv (Ivl ql qh : ivl WN)) x y HB (conj G1 (conj G2 O)) Fx Fy (proj1 R1) (proj2 R2) Bx By) as (Z & E & FZ & K1 & (q & Hq & r & s & Wr & Ws & K2) & (q' & Hq' & r' & s' & Wr' & Ws' & K3)).
      destruct (conv_real (alower a) Fa1) as [_ Eal], (conv_real (aupper a) Fa2) as [_ Eau], (conv_real (alower b) Fb1) as [_ Ebl], (conv_real (aupper b) Fb2) as [_ Ebu].
      assert (WA : forall p, within (conv_arg (c : WN -> FN) a) p <-> within a p) by (intros p; unfold within; rewrite c_lower, c_upper; setoid_rewrite Eal; setoid_rewrite Eau; reflexivity).
      assert (WB : forall p, within (conv_arg (c : WN -> FN) b) p <-> within b p) by (intros p; unfold within; rewrite c_lower, c_upper; setoid_rewrite Ebl; setoid_rewrite Ebu; reflexivity).
      exists Z. split; [exact E|]. split; [exact FZ|]. cbn [alower aupper lo hi] in *. setoid_rewrite WA. setoid_rewrite WB.
      assert (BX : forall (z : arg FN) t, bounded_by B z -> within z t -> Rabs t <= B) by (intros z t [Z1 Z2] [Z3 Z4]; apply Rabs_le_inv in Z1, Z2; apply Rabs_le; lra).
      assert (AT : forall q r s w, (q = B2R ql \/ q = B2R qh) -> within x r -> within y s -> Rabs (mixr q r s - w) <= e * (6 * B + 3) ->
        exists p q r s, within a p /\ within b q /\ within x r /\ within y s /\ Rabs ((p * r + q * s) / (p + q) - w) <= e * (16 * B + 3)).
      { clear q Hq r s Wr Ws K2 q' Hq' r' s' Wr' Ws' K3. intros q r s w Hq Wr Ws K.
        assert (C : exists p o, within a p /\ within b o /\ 0 < p + o /\ Rabs (p / (p + o) - q) <= 5 * e).
        { destruct Hq as [-> | ->]; [exists (B2R (alower a)), (B2R (aupper b))|exists (B2R (aupper a)), (B2R (alower b))]; unfold within; rewrite Rabs_minus_sym; repeat split; lra. }
        destruct C as (p & o & Wp & Wo & Sp' & Cp). exists p, o, r, s. repeat (split; [assumption|]). change ((p * r + o * s) / (p + o)) with (mixl p o r s). rewrite mixl_mixr by exact Sp'.
        pose proof (mixr_move _ _ r s B _ Cp (BX x r Bx Wr) (BX y s By Ws)) as M1. replace (mixr (p / (p + o)) r s - w) with ((mixr (p / (p + o)) r s - mixr q r s) + (mixr q r s - w)) by ring.
        eapply Rle_trans; [apply Rabs_triang|]. lra. }
      split; [|split; [exact (AT q r s _ Hq Wr Ws K2)|exact (AT q' r' s' _ Hq' Wr' Ws' K3)]].
      intros p o r0 s0 Wp Wo W1 W2. change ((p * r0 + o * s0) / (p + o)) with (mixl p o r0 s0). unfold within in Wp, Wo. rewrite mixl_mixr by lra. set (f := p / (p + o)).
      assert (F1 : B2R (alower a) / (B2R (alower a) + B2R (aupper b)) <= f) by (apply fraction_mono; lra). assert (F2 : f <= B2R (aupper a) / (B2R (aupper a) + B2R (alower b))) by (apply fraction_mono; lra).
      assert (C : exists g, B2R ql <= g <= B2R qh /\ Rabs (f - g) <= 5 * e).
      { apply Rabs_le_inv in N1, N2. destruct (Rlt_or_le f (B2R ql)) as [C1|C1]; [exists (B2R ql)|destruct (Rlt_or_le (B2R qh) f) as [C2|C2]; [exists (B2R qh)|exists f]]; (split; [lra|apply Rabs_le; lra]). }
      destruct C as (g & Wg & Cg). pose proof (mixr_move _ _ r0 s0 B _ Cg (BX x r0 Bx W1) (BX y s0 By W2)) as M1. specialize (K1 g r0 s0 Wg W1 W2). apply Rabs_le_inv in M1. lra.
    Qed.
  End Narrow.
End Core.

(** ** fractional_weights *)
Section Weights.
  Context {L R T : num} (HL : num_laws L) (HR : num_laws R) (HT : num_laws T) (cl : L -> T) (cr : R -> T) (CL : conv_laws L T cl) (CR : conv_laws R T cr) (dbg : bool).
  Lemma nonneg_conv {W : num} (HW : num_laws W) (c : W -> T) (C : conv_laws W T c) (x : arg W) : aproper x -> always_nonneg dbg (conv_arg c x) = always_nonneg dbg x.
  Proof.
    intros Hx. pose proof (nl_ord W HW) as OW. pose proof (nl_ord T HT) as OT. pose proof (lower_ok HW x Hx) as A. pose proof (upper_ok HW x Hx) as B. pose proof (c_proper c C x Hx) as Hc.
    destruct x as [v|X]; cbn [conv_arg always_nonneg]; [now rewrite (c_ge0 HW HT c C v A)|].
    unfold rel_geq, rel_pre. rewrite (aproper_assigned OW (Iv X) Hx). change (aassigned (Iv (Ivl (c (lo X)) (c (hi X))))) with (aassigned (conv_arg c (Iv X))). rewrite (aproper_assigned OT _ Hc). cbn [aassigned andb].
    replace (expects_debug dbg true) with (Ret tt) by (now destruct dbg). cbn [bind]. unfold compare_leq. cbn [alower aupper lo hi] in *. now rewrite (c_ge0 HW HT c C _ B), (cv_neg _ _ _ C).
  Qed.
  Lemma mixed_weights_eq (a : arg L) (b : arg R) : aproper a -> aproper b -> mixed_weights cl cr dbg a b = iweights dbg (conv_arg cl a) (conv_arg cr b).
  Proof.
    intros Ha Hb. unfold mixed_weights, iweights. rewrite (mixed_assigned HL HR dbg a b Ha Hb), (pre_ok HT dbg _ _ (c_proper cl CL a Ha) (c_proper cr CR b Hb)). cbn [bind].
    rewrite (nonneg_conv HL cl CL a Ha), (nonneg_conv HR cr CR b Hb), !c_lower, !c_upper.
    replace (always_positive_sum dbg (conv_arg cl a) (conv_arg cr b)) with (mixed_positive_sum cl cr dbg a b); [reflexivity|].
    pose proof (mixed_add_eq HL HR HT cl cr CL CR dbg a b Ha Hb) as E. destruct a as [v|X], b as [v'|Y]; cbn [mixed_positive_sum conv_arg always_positive_sum] in *; [reflexivity|rewrite E; reflexivity..].
  Qed.
End Weights.

(** ** Witnesses *)
(** blend_linear(2, 1, x, y) with x = 0, y = 3: x instead of the mean 1. *)
Definition at64 (m : Z) : arg float64 := Iv (Ivl (f64 m 0) (f64 m 0)).
Lemma r64 : B2R (f64 0 0) = 0 /\ B2R (f64 1 0) = 1 /\ B2R (f64 3 0) = 3.
Proof. repeat split; unfold B2R, F2R; cbn; lra. Qed.
Lemma int_linear_wrong dbg : finite_arg (at64 0) /\ finite_arg (at64 3) /\ bounded_by 3 (at64 0) /\ bounded_by 3 (at64 3)
  /\ ~ near_range4 (/ 2) (fun p q r s => (p * r + q * s) / (p + q)) (mixed_blend_linear int_to_double dbg (Sc (i32 2)) (Sc (i32 1)) (at64 0) (at64 3)) (Sc (int_to_double (i32 2))) (Sc (int_to_double (i32 1))) (at64 0) (at64 3).
Proof.
  destruct r64 as (E0 & E1 & E3). assert (F0 : finite_arg (at64 0)) by (split; [reflexivity|split; [reflexivity|apply Rle_refl]]). assert (F3 : finite_arg (at64 3)) by (split; [reflexivity|split; [reflexivity|apply Rle_refl]]).
  assert (B0 : bounded_by 3 (at64 0)) by (unfold bounded_by; cbn [at64 alower aupper lo hi]; setoid_rewrite E0; rewrite Rabs_R0; lra).
  assert (B3 : bounded_by 3 (at64 3)) by (unfold bounded_by; cbn [at64 alower aupper lo hi]; setoid_rewrite E3; rewrite Rabs_pos_eq; lra). repeat (split; [assumption|]).
  intros (Z & E & _ & K & _). assert (T : 0 <= 3 <= bpow radix2 (1024 - 3)) by (split; [lra|]; apply Rle_trans with (bpow radix2 2); [cbn; lra|apply bpow_le; lia]).
  destruct (int_linear 53 1024 prec_gt_0_53 prec_lt_emax_64 ltac:(lia) 32 le_2_32 dbg 3 (Sc (i32 2)) (Sc (i32 1)) (at64 0) (at64 3)) as (Z' & E' & _ & _ & _ & p & r & s & Wp & Wr & Ws & N);
    [reflexivity|discriminate|discriminate|discriminate|discriminate|assumption..|].
  assert (Z = Z') as <- by (assert (Ret Z = Ret Z') as Q by (rewrite <- E, <- E'; reflexivity); now injection Q).
  destruct (one_real 53 1024 prec_gt_0_53 prec_lt_emax_64) as [_ O1].
  assert (p = 1) as -> by (unfold within, int_fractions in Wp; cbn [alower aupper lo hi] in Wp; change (val (i32 1)) with 1%Z in Wp; change (val (i32 2)) with 2%Z in Wp; change (1 <? 2)%Z with true in Wp; cbv iota in Wp; setoid_rewrite O1 in Wp; lra).
  assert (r = 0) as -> by (unfold within in Wr; cbn [at64 alower aupper lo hi] in Wr; setoid_rewrite E0 in Wr; lra).
  destruct (small_int 53 1024 prec_gt_0_53 prec_lt_emax_64 ltac:(lia) 32 (i32 1) ltac:(cbn; lia)) as [_ V1].
  assert (V2 : B2R (int_to_double (i32 2)) = 2) by (unfold B2R, F2R; cbn; lra).
  specialize (K 2 1 0 3). unfold within in K. cbn [at64 alower aupper lo hi] in K. setoid_rewrite V2 in K. setoid_rewrite V1 in K. setoid_rewrite E0 in K. setoid_rewrite E3 in K.
  change (IZR (val (i32 1))) with 1 in K. specialize (K ltac:(lra) ltac:(lra) ltac:(lra) ltac:(lra)).
  assert (N' : B2R (hi Z) = 0). { pose proof (Rabs_pos (1 * 0 + (1 - 1) * s - B2R (hi Z))). assert (Q : Rabs (1 * 0 + (1 - 1) * s - B2R (hi Z)) = 0) by lra. destruct (Req_dec (1 * 0 + (1 - 1) * s - B2R (hi Z)) 0) as [Q'|Q']; [lra|]. now apply Rabs_no_R0 in Q'. }
  setoid_rewrite N' in K. lra.
Qed.

(** f = 2^-30 of type float, x = 0, y = 1 of type double: 1 - f is rounded to 1. *)
Definition f32 (m e : Z) : float32 := @binary_normalize 24 128 prec_gt_0_24 prec_lt_emax_32 mode_NE m e false.
Lemma narrow_wrong dbg : 0 <= B2R (f32 1 (-30) : binary_float 24 128) <= 1 /\ finite_arg (Sc (f32 1 (-30))) /\ finite_arg (at64 0) /\ finite_arg (at64 1) /\ bounded_by 1 (at64 0) /\ bounded_by 1 (at64 1)
  /\ ~ near_range3 (bpow radix2 (-53) * (6 * 1 + 3)) (fun p r s => p * r + (1 - p) * s) (mixed_blend_fractions float_to_double dbg (Sc (f32 1 (-30))) (at64 0) (at64 1)) (Sc (float_to_double (f32 1 (-30)))) (at64 0) (at64 1).
Proof.
  destruct r64 as (E0 & E1 & E3). assert (F0 : finite_arg (at64 0)) by (split; [reflexivity|split; [reflexivity|apply Rle_refl]]). assert (F1 : finite_arg (at64 1)) by (split; [reflexivity|split; [reflexivity|apply Rle_refl]]).
  assert (Ef : B2R (f32 1 (-30) : binary_float 24 128) = / 1073741824) by (unfold B2R, F2R; cbn; lra). assert (Ff : finite_arg (Sc (f32 1 (-30)))) by (split; [reflexivity|split; [reflexivity|apply Rle_refl]]).
  assert (B0 : bounded_by 1 (at64 0)) by (unfold bounded_by; cbn [at64 alower aupper lo hi]; setoid_rewrite E0; rewrite Rabs_R0; lra).
  assert (B1 : bounded_by 1 (at64 1)) by (unfold bounded_by; cbn [at64 alower aupper lo hi]; setoid_rewrite E1; rewrite Rabs_pos_eq; lra).
  split; [setoid_rewrite Ef; lra|]. repeat (split; [assumption|]). intros (Z & E & (Fl & _ & _) & K & _).
  assert (Q : exists Z, mixed_blend_fractions float_to_double dbg (Sc (f32 1 (-30))) (at64 0) (at64 1) = Ret Z /\ o_le (f64 1 0) (lo Z) = true) by (apply ret_witness; destruct dbg; vm_compute; reflexivity).
  destruct Q as (Z' & E' & L). rewrite E in E'. injection E' as <-. apply (le_B2R 53 1024 prec_gt_0_53 prec_lt_emax_64) in L; [|reflexivity|exact Fl]. setoid_rewrite E1 in L.
  destruct (conv_real 53 1024 prec_gt_0_53 prec_lt_emax_64 24 128 prec_gt_0_24 ltac:(lia) ltac:(lia) (f32 1 (-30)) eq_refl) as [_ Ec].
  specialize (K (/ 1073741824) 0 1). unfold within in K. cbn [at64 alower aupper lo hi] in K. setoid_rewrite Ec in K. setoid_rewrite Ef in K. setoid_rewrite E0 in K. setoid_rewrite E1 in K.
  specialize (K ltac:(lra) ltac:(lra) ltac:(lra)). change (bpow radix2 (-53)) with (/ 9007199254740992) in K. destruct K as [K _].
  assert (Q : 1 - / 9007199254740992 * (6 * 1 + 3) <= / 1073741824 * 0 + (1 - / 1073741824) * 1) by (eapply Rle_trans; [|exact K]; apply Rplus_le_compat; [exact L|apply Rle_refl]). lra.
Qed.
Lemma int_linear_refuted dbg : exists (a b : arg int32) (x y : arg float64), (forall p, ael a p -> 0 < val p)%Z /\ (forall p, ael b p -> 0 < val p)%Z /\ finite_arg x /\ finite_arg y /\ bounded_by 3 x /\ bounded_by 3 y
  /\ ~ near_range4 (/ 2) (fun p q r s => (p * r + q * s) / (p + q)) (mixed_blend_linear int_to_double dbg a b x y) (conv_arg int_to_double a) (conv_arg int_to_double b) x y.
Proof.
  exists (Sc (i32 2)), (Sc (i32 1)), (at64 0), (at64 3). split; [|split; [|exact (int_linear_wrong dbg)]].
  - intros p [H _]. apply Z.leb_le in H. change (val (i32 2)) with 2%Z in H. change (2 <= val p)%Z in H. lia.
  - intros p [H _]. apply Z.leb_le in H. change (1 <= val p)%Z in H. lia.
Qed.
Lemma mixed_blend_example (f := Iv (Ivl (i32 0) (i32 1))) (x := Iv (Ivl (f64 (-2) 0) (f64 1 0))) (y := Iv (Ivl (f64 1 0) (f64 2 0))) (a := Sc (f32 2 0)) (b := Sc (f32 1 0)) :
  (0 <= val (alower f) /\ val (alower f) <= val (aupper f) /\ val (aupper f) <= 1 /\ 0 < val (i32 2) /\ val (i32 2) + val (i32 1) <= int_max 32)%Z /\ finite_arg x /\ finite_arg y /\ bounded_by 2 x /\ bounded_by 2 y /\ 0 <= 2 <= bpow radix2 (1024 - 3)
  /\ aproper x /\ aproper y /\ finite_arg a /\ finite_arg b /\ 0 <= B2R (alower a : binary_float 24 128) /\ 0 <= B2R (alower b : binary_float 24 128) <= 1 /\ 0 < B2R (alower a : binary_float 24 128) + B2R (alower b : binary_float 24 128)
  /\ converts int32 float64 int_to_double /\ converts float32 float64 float_to_double.
Proof.
  assert (E1 : B2R (f64 (-2) 0) = -2) by (unfold B2R, F2R; cbn; lra). assert (E2 : B2R (f64 1 0) = 1) by (unfold B2R, F2R; cbn; lra). assert (E3 : B2R (f64 2 0) = 2) by (unfold B2R, F2R; cbn; lra).
  assert (E4 : B2R (f32 2 0) = 2) by (unfold B2R, F2R; cbn; lra). assert (E5 : B2R (f32 1 0) = 1) by (unfold B2R, F2R; cbn; lra).
  split; [repeat split; discriminate || reflexivity|]. unfold finite_arg, bounded_by, x, y, a, b. cbn [alower aupper lo hi]. setoid_rewrite E1. setoid_rewrite E2. setoid_rewrite E3. setoid_rewrite E4. setoid_rewrite E5.
  rewrite (Rabs_left1 (-2)), (Rabs_pos_eq 1), (Rabs_pos_eq 2) by lra.
  assert (T : 2 <= bpow radix2 (1024 - 3)) by (apply Rle_trans with (bpow radix2 1); [cbn; lra|apply bpow_le; lia]).
  repeat (split; [reflexivity || (repeat split; reflexivity || lra)|]). split; [apply cv_int_float; lia|apply cv_float; lia].
Qed.
