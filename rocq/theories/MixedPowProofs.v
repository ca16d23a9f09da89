(** pow with an exponent of a signed integer type (C72). *)
From Coq Require Import Reals ZArith Bool Lra Lia.
From Flocq Require Import Core BinarySingleNaN.
From Verif Require Import Outcome SetModel SetProofs MathModel RealMath FloatMath MathSpec FloatMathProofs Spec Num NumLaws IntervalModel IvlSpec IvlProofs ArithProofs IntNum IntProofs XReal RealNum FloatNum FloatProofs
  ValueTypes MathProofs Atan2Proofs RoundSpec MachineSpec PowProofs PowProofs2 PowMachineProofs PowNearProofs MixedModel MixedProofs MixedArithModel ConvProofs MixedArithProofs FloatIntModel FloatIntSpec FloatIntProofs MixedPowModel.
Open Scope R_scope.

(** The mathematical functions with another conversion to long long and back. *)
Definition patched {N : num} (M : math N) (k : Z) (z : N) : math N := {|
  m_sqrt := m_sqrt M; m_cbrt := m_cbrt M; m_log := m_log M; m_exp := m_exp M; m_pow := m_pow M; m_cos := m_cos M; m_sin := m_sin M; m_tan := m_tan M;
  m_asin := m_asin M; m_acos := m_acos M; m_atan := m_atan M; m_atan2 := m_atan2 M; m_fmod := m_fmod M; m_floor := m_floor M; m_ceil := m_ceil M; m_round := m_round M;
  m_pi := m_pi M; m_of_Z := fun _ => z; m_trunc := fun _ => Ret k |}.

Section Gen.
  Context {w : Z} {Hw : (2 <= w)%Z} {N : num} {rd : R -> xr} {phi : N -> xr} (D : denotes N rd phi) (M : math N) (c : int_num w Hw -> N) (C : conv_laws (int_num w Hw) N c).
  Notation IN := (int_num w Hw).
  Let HO := denotes_ord D.
  Let HN := denotes_laws D.
  Implicit Types (x : arg N) (y : arg IN).
  Lemma iok (v : IN) : ok v. Proof. unfold ok. cbn. apply Z.leb_refl. Qed.
  Lemma c_ok (v : IN) : ok (c v). Proof. apply (cv_mono _ _ _ C). apply iok. Qed.
  Lemma mixed_mul0_eq (v : IN) u : mixed_mul0 c v u = mul0 (c v) u.
  Proof.
    unfold mixed_mul0, mul0. unfold inf_b. pose proof (d_float _ _ _ D) as FN. rewrite (cv_ninf _ _ _ C FN), (cv_pinf _ _ _ C FN).
    replace (o_eq (c v) n_zero) with (o_eq v n_zero); [reflexivity|]. symmetry. apply (c_eq0 (int_num_laws w Hw) HN c C). apply iok.
  Qed.
  Lemma mixed_amul0_eq y x : mixed_amul0 c y x = amul0 (conv_arg c y) x.
  Proof. destruct y, x; cbn [mixed_amul0 amul0 conv_arg lo hi]; rewrite ?mixed_mul0_eq; reflexivity. Qed.
  (** The code is that of [pow] for the converted exponent, except that parity and the comparison of the end points are those of the integers. *)
  Lemma mixed_pow_eq dbg x y z : aproper y -> (o_eq (alower y) (aupper y) = true -> o_eq z (c (alower y)) = true) -> (o_eq (alower y) (aupper y) = false -> o_eq z (c (alower y)) = false) ->
    mixed_pow M c dbg x y = ipow (patched M (val (alower y)) z) dbg x (conv_arg c y).
  Proof.
    intros Py Z1 Z2. unfold mixed_pow, ipow. rewrite (aproper_assigned HO _ (c_proper c C y Py)), (aproper_assigned (nl_ord _ (int_num_laws w Hw)) y Py).
    destruct (expects_debug dbg (aassigned x && true)); cbn [bind]; auto. destruct (possibly_nonneg dbg x) as [p| | | |]; cbn [bind]; auto.
    assert (E : forall A (k : ivl N -> outcome A),
      (result <- (if p then m <- amax0 dbg x ;; l <- alog M dbg m ;; e <- mixed_amul0 c y l ;; e <- aexp M dbg e ;; aassign ivl_default e else Ret ivl_default) ;; k result)
      = (result <- (if p then m <- amax0 dbg x ;; l <- alog M dbg m ;; e <- amul0 (conv_arg c y) l ;; e <- aexp M dbg e ;; aassign ivl_default e else Ret ivl_default) ;; k result)).
    { intros A k. destruct p; [|reflexivity]. destruct (amax0 dbg x) as [mm| | | |]; cbn [bind]; auto. destruct (alog M dbg mm) as [ll| | | |]; cbn [bind]; auto. now rewrite mixed_amul0_eq. }
    rewrite E. clear E. match goal with |- bind ?a _ = bind ?b _ => change b with a; destruct a as [R| | | |] end; cbn [bind]; auto.
    destruct (possibly_neg dbg x) as [[|]| | | |]; cbn [bind]; auto. cbn [m_trunc m_of_Z patched bind]. rewrite c_lower, c_upper.
    destruct (o_eq (alower y) (aupper y)) eqn:Ey.
    - rewrite (Z1 eq_refl). replace (o_eq (c (alower y)) (c (aupper y))) with true.
      + cbn [andb]. destruct (aneg dbg x) as [nn| | | |]; cbn [bind]; auto. destruct (amax0 dbg nn) as [mm| | | |]; cbn [bind]; auto. change (alog (patched M (val (alower y)) z)) with (alog M). destruct (alog M dbg mm) as [ll| | | |]; cbn [bind]; auto.
        rewrite mixed_amul0_eq. reflexivity.
      + symmetry. rewrite (ol_eq _ HO). rewrite (ol_eq _ (nl_ord _ (int_num_laws w Hw))) in Ey. apply andb_prop in Ey as [E1 E2]. now rewrite !(cv_mono _ _ _ C).
    - rewrite (Z2 eq_refl), andb_false_r. reflexivity.
  Qed.
  Lemma mixed_pow_same dbg x y : aproper y -> m_trunc M (c (alower y)) = Ret (val (alower y)) -> o_eq (m_of_Z M (val (alower y))) (c (alower y)) = true ->
    (o_eq (alower y) (aupper y) = false -> o_eq (c (alower y)) (c (aupper y)) = false) -> mixed_pow M c dbg x y = ipow M dbg x (conv_arg c y).
  Proof.
    intros Py T Z1 Z2. unfold mixed_pow, ipow. rewrite (aproper_assigned HO _ (c_proper c C y Py)), (aproper_assigned (nl_ord _ (int_num_laws w Hw)) y Py).
    destruct (expects_debug dbg (aassigned x && true)); cbn [bind]; auto. destruct (possibly_nonneg dbg x) as [p| | | |]; cbn [bind]; auto.
    assert (E : forall A (k : ivl N -> outcome A),
      (result <- (if p then m <- amax0 dbg x ;; l <- alog M dbg m ;; e <- mixed_amul0 c y l ;; e <- aexp M dbg e ;; aassign ivl_default e else Ret ivl_default) ;; k result)
      = (result <- (if p then m <- amax0 dbg x ;; l <- alog M dbg m ;; e <- amul0 (conv_arg c y) l ;; e <- aexp M dbg e ;; aassign ivl_default e else Ret ivl_default) ;; k result)).
    { intros A k. destruct p; [|reflexivity]. destruct (amax0 dbg x) as [mm| | | |]; cbn [bind]; auto. destruct (alog M dbg mm) as [ll| | | |]; cbn [bind]; auto. now rewrite mixed_amul0_eq. }
    rewrite E. clear E. match goal with |- bind ?a _ = bind _ _ => destruct a as [R| | | |] end; cbn [bind]; auto.
    destruct (possibly_neg dbg x) as [[|]| | | |]; cbn [bind]; auto. rewrite c_lower, c_upper, T. cbn [bind]. rewrite Z1, andb_true_r.
    destruct (o_eq (alower y) (aupper y)) eqn:Ey.
    - replace (o_eq (c (alower y)) (c (aupper y))) with true.
      + destruct (aneg dbg x) as [nn| | | |]; cbn [bind]; auto. destruct (amax0 dbg nn) as [mm| | | |]; cbn [bind]; auto. destruct (alog M dbg mm) as [ll| | | |]; cbn [bind]; auto.
        now rewrite mixed_amul0_eq.
      + symmetry. rewrite (ol_eq _ HO). rewrite (ol_eq _ (nl_ord _ (int_num_laws w Hw))) in Ey. apply andb_prop in Ey as [E1 E2]. now rewrite !(cv_mono _ _ _ C).
    - rewrite (Z2 eq_refl). reflexivity.
  Qed.
  Lemma int_eq (a b : IN) : o_eq a b = (val a =? val b)%Z. Proof. reflexivity. Qed.
  Lemma nan_eq (u : N) : exists z : N, o_eq z u = false.
  Proof.
    destruct (o_eq n_bot u) eqn:E; [|eauto]. exists n_top. rewrite (d_eq _ _ _ D) in *. rewrite (d_bot _ _ _ D) in E. rewrite (d_top _ _ _ D). destruct (phi u); try discriminate; reflexivity.
  Qed.
  Lemma conv_finite_ (v : IN) : finite (c v).
  Proof.
    split.
    - rewrite (nan_not_ok HO). intros K. apply K. apply c_ok.
    - pose proof (d_float _ _ _ D) as FN. unfold infinite. intros [_ [K|K]].
      + pose proof (cv_pinf _ _ _ C FN v) as Q. unfold is_pinf in Q. rewrite FN, K in Q. discriminate Q.
      + pose proof (cv_ninf _ _ _ C FN v) as Q. unfold is_ninf in Q. rewrite FN, K in Q. discriminate Q.
  Qed.
  Lemma mixed_nonneg dbg x y : aproper x -> aproper y -> o_le n_zero (alower x) = true -> mixed_pow M c dbg x y = ipow M dbg x (conv_arg c y).
  Proof.
    intros Px Py H. destruct (o_eq (alower y) (aupper y)) eqn:Ey.
    - rewrite (mixed_pow_eq dbg x y (c (alower y)) Py); [|intros _; rewrite (ol_eq _ HO), !c_ok; reflexivity|congruence].
      unfold ipow. rewrite (possibly_neg_gen D dbg x Px). replace (o_lt (alower x) n_zero) with false by (clear - HO H; ord HO). reflexivity.
    - destruct (nan_eq (c (alower y))) as (z & Hz). rewrite (mixed_pow_eq dbg x y z Py); [|congruence|auto].
      unfold ipow. rewrite (possibly_neg_gen D dbg x Px). replace (o_lt (alower x) n_zero) with false by (clear - HO H; ord HO). reflexivity.
  Qed.
End Gen.

Lemma real_conv_laws w Hw : conv_laws (int_num w Hw) real_num (fun n => XFin (IZR (val n))).
Proof.
  split; cbn.
  - intros a b H. apply Z.leb_le in H. apply Rle_bool_true. now apply IZR_le.
  - intros a _. apply (iok (Hw := Hw)).
  - intros a. unfold xlt, xle. destruct (Z.ltb_spec 0 (val a)) as [K|K].
    + apply IZR_lt in K. rewrite Rle_bool_true by lra. rewrite Rle_bool_false by lra. reflexivity.
    + apply IZR_le in K. rewrite (Rle_bool_true (IZR (val a)) 0) by lra. now rewrite andb_false_r.
  - intros a. unfold xlt, xle. destruct (Z.ltb_spec (val a) 0) as [K|K].
    + apply IZR_lt in K. rewrite Rle_bool_true by lra. rewrite Rle_bool_false by lra. reflexivity.
    + apply IZR_le in K. rewrite (Rle_bool_true 0 (IZR (val a))) by lra. now rewrite andb_false_r.
  - reflexivity.
  - reflexivity.
  - discriminate.
Qed.
Lemma pow_conv_laws w Hw N M c : @pow_conv w Hw N M c -> exists rd phi, denotes N rd phi /\ conv_laws (int_num w Hw) N c.
Proof.
  intros [prec emax Hp He L S|].
  - exists (FloatProofs.rd prec emax), (f2x prec emax). split; [apply float_denotes|now apply int_float_laws].
  - exists XFin, (fun a => a). split; [apply real_denotes|apply real_conv_laws].
Qed.
Lemma mixed_pow_nonneg w Hw N M c : @pow_conv w Hw N M c -> forall dbg (x : arg N) (y : arg (int_num w Hw)), aproper x -> aproper y -> nonneg (alower x) ->
  mixed_pow M c dbg x y = ipow M dbg x (conv_arg c y).
Proof. intros H dbg x y Px Py Hx. destruct (pow_conv_laws _ _ _ _ _ H) as (rd & phi & D & C). now apply (mixed_nonneg D M c C). Qed.

Lemma mixed_pow_signed w Hw N M c : @pow_conv w Hw N M c -> forall dbg k (x : arg N) (y : arg (int_num w Hw)), increasing nonneg (m_log M) -> increasing anywhere (m_exp M) ->
  aproper x -> o_lt (alower x) n_zero = true -> val (alower y) = k -> val (aupper y) = k ->
  exists Z, mixed_pow M c dbg x y = Ret Z /\ (forall v w, ael x v -> ael (conv_arg c y) w -> exists z, pow_signed M k v w = Ret z /\ el Z z)
    /\ (o_lt (aupper x) n_zero = true -> is_hull (img2 (pow_signed M k) x (conv_arg c y)) Z).
Proof.
  intros H dbg k x y IL IE Px Lx E1 E2. destruct (pow_conv_laws _ _ _ _ _ H) as (rd & phi & D & C). pose proof (denotes_ord D) as HO.
  assert (EY : alower y = aupper y) by (apply val_inj; congruence).
  assert (Py : aproper y) by (unfold aproper; rewrite <- EY; apply iok).
  assert (K : o_eq (c (alower y)) (c (alower y)) = true) by (rewrite (ol_eq _ HO), !(c_ok c C); reflexivity).
  rewrite (mixed_pow_eq D M c C dbg x y (c (alower y)) Py); [|auto|rewrite int_eq; rewrite E1, E2, Z.eqb_refl; discriminate].
  destruct (pow_integer_machine D (patched M (val (alower y)) (c (alower y))) dbg k x (conv_arg c y)) as (Z & EZ & AZ & HZ); auto.
  - rewrite c_lower, c_upper, <- EY. exact K.
  - rewrite c_lower. apply (conv_finite_ D c C).
  - cbn [m_trunc patched]. now rewrite E1.
  - rewrite c_lower. exact K.
  - now exists Z.
Qed.

Lemma mixed_pow_nan w Hw N M c : @pow_conv w Hw N M c -> forall dbg (x : arg N) (y : arg (int_num w Hw)), increasing nonneg (m_log M) -> increasing anywhere (m_exp M) ->
  aproper x -> o_lt (alower x) n_zero = true -> (val (alower y) < val (aupper y))%Z -> exists Z, mixed_pow M c dbg x y = Ret Z /\ nan_ivl Z.
Proof.
  intros H dbg x y IL IE Px Lx E. destruct (pow_conv_laws _ _ _ _ _ H) as (rd & phi & D & C). pose proof (denotes_ord D) as HO.
  assert (Py : aproper y) by (apply (proj2 (Z.leb_le (val (alower y)) (val (aupper y)))); lia).
  unfold mixed_pow. rewrite (aproper_assigned HO x Px), (aproper_assigned (nl_ord _ (int_num_laws w Hw)) y Py). cbn [andb]. replace (expects_debug dbg true) with (Ret tt) by (now destruct dbg). cbn [bind].
  rewrite (possibly_nonneg_gen D dbg x Px), (possibly_neg_gen D dbg x Px), Lx. cbn [bind]. rewrite int_eq. replace (val (alower y) =? val (aupper y))%Z with false by (symmetry; apply Z.eqb_neq; lia).
  assert (NI : exists Z, @nan_interval N = Ret Z /\ nan_ivl Z) by (apply (nan_interval_nan (denotes_laws D)), (d_float _ _ _ D)).
  destruct (o_le n_zero (aupper x)); [|exact NI].
  destruct (amax0_phi D dbg x Px) as (m & Em & Pm & Nm & _). rewrite Em. cbn [bind].
  destruct (epow_phi D M dbg m (conv_arg c y) IL IE Pm Nm (c_proper c C y Py)) as (f & Ef & Pf & _); [rewrite c_lower; apply (conv_finite_ D c C)|rewrite c_upper; apply (conv_finite_ D c C)|].
  destruct (alog M dbg m) as [l| | | |]; cbn [bind] in *; try discriminate Ef. rewrite (mixed_amul0_eq D c C). destruct (amul0 (conv_arg c y) l) as [e| | | |]; cbn [bind] in *; try discriminate Ef.
  rewrite Ef. cbn [bind]. destruct (aassign_default_phi D f Pf) as (Z & -> & _). cbn [bind]. exact NI.
Qed.

(** ** No undefined behaviour, whatever the library functions return *)
Definition safe {A} (o : outcome A) : Prop := match o with Ret _ | FailFast => True | _ => False end.
Lemma safe_bind {A B} (o : outcome A) (f : A -> outcome B) : safe o -> (forall a, safe (f a)) -> safe (bind o f).
Proof. destruct o; cbn; auto. Qed.
Section Safe.
  Context {N : num} {rd : R -> xr} {phi : N -> xr} (D : denotes N rd phi) (M : math N) (dbg : bool).
  Lemma s_mul (u v : N) : safe (n_mul u v). Proof. destruct (d_mul _ _ _ D u v) as (r & -> & _). exact I. Qed.
  Lemma s_neg (u : N) : safe (n_neg u). Proof. destruct (d_neg _ _ _ D u) as (r & -> & _). exact I. Qed.
  Lemma s_exp b : safe (expects b). Proof. now destruct b. Qed.
  Lemma s_expd b : safe (expects_debug dbg b). Proof. unfold expects_debug. destruct dbg, b; exact I. Qed.
  Ltac s := repeat first [exact I | apply s_mul | apply s_neg | apply s_exp | apply s_expd | apply safe_bind; [|intros ?]
    | match goal with |- safe (if ?b then _ else _) => destruct b end | match goal with |- safe (match ?b with _ => _ end) => destruct b end].
  Lemma s_mk (u v : N) : safe (mk u v). Proof. unfold mk. s. Qed.
  Lemma s_fub (u v : N) : safe (from_unordered_bounds u v). Proof. unfold from_unordered_bounds. first [apply s_mk|s]. Qed.
  Lemma s_h2 (u v : N) : safe (hull2 u v). Proof. unfold hull2. first [apply s_mk|s]. Qed.
  Lemma s_h4 (a b c d : N) : safe (hull4 a b c d). Proof. unfold hull4. first [apply s_mk|s]. Qed.
  Lemma s_mul0 {w Hw} (c : int_num w Hw -> N) v u : safe (mixed_mul0 c v u). Proof. unfold mixed_mul0. s. Qed.
  Ltac t := repeat first [apply s_mk | apply s_fub | apply s_h2 | apply s_h4 | apply s_mul0 | exact I | apply s_mul | apply s_neg | apply s_exp | apply s_expd | apply safe_bind; [|intros ?]
    | match goal with |- safe (if ?b then _ else _) => destruct b end | match goal with |- safe (match ?b with _ => _ end) => destruct b end].
  Lemma s_amul0 {w Hw} (c : int_num w Hw -> N) y x : safe (mixed_amul0 c y x). Proof. unfold mixed_amul0. t. Qed.
  Lemma s_imul (x y : arg N) : safe (imul dbg x y). Proof. unfold imul. t. Qed.
  Lemma s_imax (x y : arg N) : safe (imax dbg x y). Proof. unfold imax. t. Qed.
  Lemma s_ineg (x : ivl N) : safe (ineg dbg x). Proof. unfold ineg. t. Qed.
  Lemma s_ass (R : ivl N) x : safe (aassign R x). Proof. unfold aassign, iassign. t. Qed.
  Lemma s_pn (x : arg N) : safe (possibly_nonneg dbg x). Proof. unfold possibly_nonneg, rel_geq, rel_pre. t. Qed.
  Lemma s_pg (x : arg N) : safe (possibly_neg dbg x). Proof. unfold possibly_neg, rel_lt, rel_pre. t. Qed.
  Ltac u := repeat first [apply s_amul0 | apply s_imul | apply s_imax | apply s_ineg | apply s_ass | apply s_pn | apply s_pg | apply s_mk | apply s_fub | exact I | apply s_mul | apply s_neg | apply s_expd
    | apply safe_bind; [|intros ?] | match goal with |- safe (if ?b then _ else _) => destruct b end | match goal with |- safe (match ?b with _ => _ end) => destruct b end].
  Lemma s_pow {w Hw} (c : int_num w Hw -> N) x y : safe (mixed_pow M c dbg x y).
  Proof. unfold mixed_pow, amax0, aneg, alog, aexp, asign, ilog, iexp, slog, sexp, nan_interval. u. Qed.
End Safe.
Lemma mixed_pow_defined w Hw N M c : @pow_conv w Hw N M c -> forall dbg (x : arg N) (y : arg (int_num w Hw)),
  mixed_pow M c dbg x y = FailFast \/ exists Z, mixed_pow M c dbg x y = Ret Z.
Proof.
  intros H dbg x y. destruct (pow_conv_laws _ _ _ _ _ H) as (rd & phi & D & C). pose proof (s_pow D M dbg c x y) as S.
  destruct (mixed_pow M c dbg x y); cbn in S; try contradiction; eauto.
Qed.

(** ** Exactness *)
Lemma mixed_pow_real w Hw dbg (x : arg real_num) (y : arg (int_num w Hw)) a b n : (w <= 64)%Z -> bounds x a b -> val (alower y) = n -> val (aupper y) = n ->
  exists Z, mixed_pow real_math (fun n => XFin (IZR (val n))) dbg x y = Ret Z /\ forall r, a <= r <= b -> el Z (Rpow r (IZR n) : real_num).
Proof.
  intros W Bx E1 E2. set (c := fun n : int_num w Hw => XFin (IZR (val n)) : real_num).
  assert (EY : alower y = aupper y) by (apply val_inj; congruence).
  assert (Py : aproper y) by (unfold aproper; rewrite <- EY; apply iok).
  assert (By : bounds (conv_arg c y) (IZR n) (IZR n)).
  { split; [|split; [|lra]]; [rewrite (c_lower (L := int_num w Hw))|rewrite (c_upper (L := int_num w Hw))]; unfold c; now rewrite ?E1, ?E2. }
  pose proof (val_range w (alower y)) as VR. unfold int_min, int_max in VR.
  assert (2 ^ (w - 1) <= 2 ^ 63)%Z by (apply Z.pow_le_mono_r; lia).
  assert (NR : (- 2 ^ 63 <= n < 2 ^ 63)%Z) by lia.
  assert (EQ : mixed_pow real_math c dbg x y = ipow real_math dbg x (conv_arg c y)).
  { apply (mixed_pow_same real_denotes real_math c (real_conv_laws w Hw) dbg x y Py).
    - unfold c. cbn [m_trunc real_math]. rewrite Ztrunc_IZR. replace (in_range 64 (val (alower y))) with true; [reflexivity|]. symmetry. apply in_range_long. lia.
    - unfold c. apply (proj2 (xeq_iff _ _)). now split.
    - rewrite <- EY, int_eq, Z.eqb_refl. discriminate. }
  rewrite EQ. destruct (Rlt_or_le a 0) as [Q|Q]; [now apply (real_pow_neg dbg x (conv_arg c y) a b n)|].
  destruct (real_pow_nonneg dbg x (conv_arg c y) a b (IZR n) (IZR n) Bx By Q) as (Z & EZ & HZ & _). exists Z. split; [exact EZ|].
  intros r Hr. apply HZ. exists (XFin r), (XFin (IZR n)). split; [apply (real_ael x a b _ Bx); eauto|]. split; [|reflexivity].
  apply (real_ael (conv_arg c y) _ _ _ By). exists (IZR n). split; [reflexivity|lra].
Qed.

Section Machine.
  Variables (prec emax : Z) (Hp : Prec_gt_0 prec) (He : Prec_lt_emax prec emax) (L : libm (binary_float prec emax)) (w : Z) (Hw : (2 <= w)%Z).
  Notation FN := (float_num prec emax Hp He).
  Notation IN := (int_num w Hw).
  Notation c := (int_to_float w prec emax Hp He).
  Hypothesis small : (w <= emax)%Z.
  Local Instance fexp_ok_ : Valid_exp (SpecFloat.fexp prec emax) := fexp_valid prec emax Hp.
  Lemma exact_conv (n : IN) : fits_float prec emax n -> f2x prec emax (c n) = XFin (IZR (val n)).
  Proof.
    intros (v & V1 & V2). rewrite (int_fin w Hw prec emax Hp He small). f_equal. apply round_generic; [auto with typeclass_instances|]. rewrite <- V2. apply generic_format_B2R.
  Qed.
  Lemma mixed_pow_float dbg (x : arg FN) (y : arg IN) : (w <= 64)%Z -> aproper y -> fits_float prec emax (alower y) -> fits_float prec emax (aupper y) ->
    mixed_pow (float_math prec emax Hp He L) (c : IN -> FN) dbg x y = ipow (float_math prec emax Hp He L) dbg x (conv_arg (I := IN) (O := FN) c y).
  Proof.
    intros W Py Fl Fu. pose proof (int_float_laws w Hw prec emax Hp He small) as C.
    apply (mixed_pow_same (float_denotes prec emax Hp He) _ _ C dbg x y Py).
    - pose proof (exact_conv _ Fl) as X. apply f2x_fin in X as [X1 X2]. cbn [m_trunc float_math]. unfold to_long_long. rewrite X1, (Btrunc_Ztrunc prec emax He), X2, Ztrunc_IZR.
      rewrite (proj2 (in_range_long (val (alower y)))); [reflexivity|]. pose proof (val_range w (alower y)) as VR. unfold int_min, int_max in VR.
      assert (2 ^ (w - 1) <= 2 ^ 63)%Z by (apply Z.pow_le_mono_r; lia). lia.
    - change (m_of_Z (float_math prec emax Hp He L) (val (alower y))) with (c (alower y)). rewrite (ol_eq _ (denotes_ord (float_denotes prec emax Hp He))), !(c_ok (N := FN) c C). reflexivity.
    - intros K. rewrite int_eq in K. rewrite (d_eq _ _ _ (float_denotes prec emax Hp He)), (exact_conv _ Fl), (exact_conv _ Fu). apply not_true_is_false. rewrite xeq_iff. intros [E _]. injection E as E.
      apply eq_IZR in E. apply Z.eqb_neq in K. now apply K.
  Qed.
End Machine.
