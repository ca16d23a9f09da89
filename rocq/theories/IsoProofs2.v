(** Runs with narrower inputs: expressions and tests. *)
From Coq Require Import Bool List Arith Lia.
From Verif Require Import Outcome SetModel Spec SetProofs SetProofs2 Num NumLaws IntervalModel IvlSpec IvlProofs ArithProofs ArithProofs2 ArithProofs3 ArithProofs4 ArithProofs5
  ConstrainModel CondSpec ConstrainProofs ConstrainProofs2 ConstrainProofs3 ConstrainProofs4 ConstrainProofs5 ConstrainWrap
  MathModel FloatMathProofs MathSpec MathProofs MonoProofs MathWrap ValueTypes LangModel LangSpec LangProofs IsoSpec IsoProofs.
Import ListNotations.

Section Iso.
  Context {N : num} {M : option (math N)} (HP : prog_type N M) (dbg : bool).
  Let HN := prog_laws N M HP.
  Let HO := nl_ord N HN.

  Definition narrower (F : outcome (ivl N)) (Z' : ivl N) : Prop := exists Z, F = Ret Z /\ proper Z /\ subset Z Z'.
  Lemma hull_narrower (P P' : N -> Prop) F Z Z' : F = Ret Z -> is_hull P Z -> is_hull P' Z' -> (forall v, P v -> P' v) -> narrower F Z'.
  Proof. intros E H [H' _] S. exists Z. split; [exact E|]. split; [exact (is_hull_proper HO P Z H)|]. apply (is_hull_least HO P Z H). auto. Qed.
  Lemma hull_of_narrower (f : N -> outcome N) F F' X X' Z' : hull_of f F X -> hull_of f F' X' -> subset X X' -> F' = Ret Z' -> narrower F Z'.
  Proof.
    intros (Z & E & H) (Z1 & E1 & H1) S E'. rewrite E' in E1. injection E1 as <-. refine (hull_narrower _ _ _ _ _ E H H1 _). intros v (x & Hx & Ex). exists x. auto.
  Qed.
  Lemma op1_narrower (f : N -> outcome N) F F' X X' Z' : op1_ok f F X -> op1_ok f F' X' -> subset X X' -> F' = Ret Z' -> narrower F Z'.
  Proof.
    intros [A B] [_ B'] S E'. destruct (B' Z' E') as [D H']. destruct (A (fun x Hx => D x (S x Hx))) as [Z E]. destruct (B Z E) as [_ H].
    refine (hull_narrower _ _ _ _ _ E H H' _). intros v (x & Hx & Ex). exists x. auto.
  Qed.
  Lemma op2_narrower (f : N -> N -> outcome N) F F' (x y x' y' : arg N) Z' : op_ok f F x y -> op_ok f F' x' y' -> asubset x x' -> asubset y y' -> F' = Ret Z' -> proper Z' -> narrower F Z'.
  Proof.
    intros [A B] [_ B'] Sx Sy E' PZ. destruct (B' Z' E') as (D & Na & H'). destruct (A (fun u v Hu Hv => D u v (Sx u Hu) (Sy v Hv))) as [Z E]. destruct (B Z E) as (_ & _ & H).
    assert (Np' : ~ nan_pair f x' y'). { intros K. destruct (Na K) as [L _]. apply (nan_iff HN) in L. apply L. exact (el_ok HO Z' _ (el_lower HO Z' PZ)). }
    assert (Np : ~ nan_pair f x y). { intros (u & v & s & Hu & Hv & Hs & Ns). apply Np'. exists u, v, s. auto. }
    refine (hull_narrower _ _ _ _ _ E (H Np) (H' Np') _). intros v (p & q & Hp & Hq & Ev). exists p, q. auto.
  Qed.

  Ltac pm := pose proof (prog_math N M HP) as HM; match goal with Mo : monotone _ _, E : _ = Ret _ |- _ => revert HM Mo E end; generalize M; intros [m|] HM Mo E; cbn [with_math] in *; [|discriminate E]; specialize (Mo m eq_refl); cbn in Mo; match goal with Dm : domain1 _ _ |- _ => cbn in Dm end.
  Lemma iun_iso u X X' Z' : proper X -> subset X X' -> domain1 u (Iv X') -> monotone M u -> iun M dbg u X' = Ret Z' -> narrower (iun M dbg u X) Z' /\ domain1 u (Iv X).
  Proof.
    intros HX S Dm Mo E. pose proof (subset_rle HO X X' HX S) as Rl. pose proof (rle_proper HO X X' HX Rl) as HX'. destruct Rl as [R1 R2].
    assert (Dn : domain1 u (Iv X)).
    { assert (D1 : nonneg (lo X') -> nonneg (lo X)) by (unfold nonneg; intros A; clear - HO A R1; ord HO).
      assert (D2 : within_one (lo X') /\ within_one (hi X') -> within_one (lo X) /\ within_one (hi X)).
      { intros [A B]. pose proof (el_lower HO X HX) as L. pose proof (el_upper HO X HX) as U. split; apply (within_el HP X' _ A B); apply S; assumption. }
      destruct u; try exact I; first [exact (D1 Dm)|exact (D2 Dm)]. }
    split; [|exact Dn]. destruct u; cbn [iun] in *.
    - unfold iplus in *. apply bind_inv in E as (? & _ & E). injection E as <-. exists X. split; [|auto].
      rewrite expects_debug_true by (unfold assigned, proper in *; clear - HO HX; ord HO). reflexivity.
    - destruct (neg_hull HN dbg X HX) as (A & B & _), (neg_hull HN dbg X' HX') as (A' & B' & _). exact (op1_narrower _ _ _ X X' Z' (conj A B) (conj A' B') S E).
    - exact (op1_narrower _ _ _ X X' Z' (square_ok HN dbg X HX) (square_ok HN dbg X' HX') S E).
    - exact (op1_narrower _ _ _ X X' Z' (icube_ok HN dbg X HX) (icube_ok HN dbg X' HX') S E).
    - exact (op1_narrower _ _ _ X X' Z' (iabs_ok HN dbg X HX) (iabs_ok HN dbg X' HX') S E).
    - pm. exact (hull_of_narrower _ _ _ X X' Z' (fp_sqrt HM dbg X HX Dn) (fp_sqrt HM dbg X' HX' Dm) S E).
    - pm. exact (hull_of_narrower _ _ _ X X' Z' (cbrt_hull HO m dbg X HX Mo) (cbrt_hull HO m dbg X' HX' Mo) S E).
    - pm. exact (hull_of_narrower _ _ _ X X' Z' (exp_hull HO m dbg X HX Mo) (exp_hull HO m dbg X' HX' Mo) S E).
    - pm. exact (hull_of_narrower _ _ _ X X' Z' (log_hull HO m dbg X HX Dn Mo) (log_hull HO m dbg X' HX' Dm Mo) S E).
    - pm. exact (hull_of_narrower _ _ _ X X' Z' (atan_hull HO m dbg X HX Mo) (atan_hull HO m dbg X' HX' Mo) S E).
    - pm. destruct Dm as [D1 D2], Dn as [D3 D4]. exact (hull_of_narrower _ _ _ X X' Z' (asin_hull HO m dbg X HX D3 D4 Mo) (asin_hull HO m dbg X' HX' D1 D2 Mo) S E).
    - pm. destruct Dm as [D1 D2], Dn as [D3 D4]. exact (hull_of_narrower _ _ _ X X' Z' (acos_hull HO m dbg X HX D3 D4 Mo) (acos_hull HO m dbg X' HX' D1 D2 Mo) S E).
    - pm. exact (hull_of_narrower _ _ _ X X' Z' (fp_floor HM dbg X HX) (fp_floor HM dbg X' HX') S E).
    - pm. exact (hull_of_narrower _ _ _ X X' Z' (fp_ceil HM dbg X HX) (fp_ceil HM dbg X' HX') S E).
    - pm. exact (hull_of_narrower _ _ _ X X' Z' (fp_round HM dbg X HX) (fp_round HM dbg X' HX') S E).
  Qed.
  Lemma lift1_iso u (x x' : arg N) a' : aproper x -> ale x x' -> domain1 u x' -> monotone M u -> lift1 M dbg u x' = Ret a' -> aproper a' ->
    (exists a, lift1 M dbg u x = Ret a /\ aproper a /\ ale a a') /\ domain1 u x.
  Proof.
    intros Hx L Dm Mo E Ha. destruct x as [c|X], x' as [c'|X']; try destruct L; cbn [lift1] in E |- *.
    - split; [|exact Dm]. exists a'. split; [exact E|]. split; [exact Ha|]. apply bind_inv in E as (r & _ & E). injection E as <-. reflexivity.
    - apply bind_inv in E as (Z' & E & K). injection K as <-. destruct (iun_iso u X X' Z' Hx L Dm Mo E) as [(Z & EZ & PZ & SZ) Dn]. split; [|exact Dn].
      exists (Iv Z). rewrite EZ. split; [reflexivity|]. split; [exact PZ|exact SZ].
  Qed.

  Lemma ibin_iso b (x y x' y' : arg N) Z' : aproper x -> aproper y -> asubset x x' -> asubset y y' -> domain2 b y' -> ibin dbg b x' y' = Ret Z' -> proper Z' ->
    narrower (ibin dbg b x y) Z' /\ domain2 b y.
  Proof.
    intros Hx Hy Sx Sy Dm E PZ. pose proof (asubset_aproper HO _ _ Hx Sx) as Hx'. pose proof (asubset_aproper HO _ _ Hy Sy) as Hy'.
    assert (Dn : domain2 b y) by (destruct b; try exact I; intros (v & Hv & Zv); apply Dm; exists v; auto). split; [|exact Dn].
    destruct b; cbn [ibin] in *.
    - exact (op2_narrower _ _ _ x y x' y' Z' (add_op_ok HN dbg x y Hx Hy) (add_op_ok HN dbg x' y' Hx' Hy') Sx Sy E PZ).
    - exact (op2_narrower _ _ _ x y x' y' Z' (sub_op_ok HN dbg x y Hx Hy) (sub_op_ok HN dbg x' y' Hx' Hy') Sx Sy E PZ).
    - exact (op2_narrower _ _ _ x y x' y' Z' (mul_op_ok HN dbg x y Hx Hy) (mul_op_ok HN dbg x' y' Hx' Hy') Sx Sy E PZ).
    - apply (zero_free_iff HN y Hy) in Dn. apply (zero_free_iff HN y' Hy') in Dm.
      exact (op2_narrower _ _ _ x y x' y' Z' (div_zero_free HN dbg x y Hx Hy Dn) (div_zero_free HN dbg x' y' Hx' Hy' Dm) Sx Sy E PZ).
    - destruct (imin_hull HO dbg x y Hx Hy) as (Z & E1 & H), (imin_hull HO dbg x' y' Hx' Hy') as (Z1 & E2 & H'). rewrite E in E2. injection E2 as <-.
      refine (hull_narrower _ _ _ _ _ E1 H H' _). intros v (p & q & Hp & Hq & Ev). exists p, q. auto.
    - destruct (imax_hull HO dbg x y Hx Hy) as (Z & E1 & H), (imax_hull HO dbg x' y' Hx' Hy') as (Z1 & E2 & H'). rewrite E in E2. injection E2 as <-.
      refine (hull_narrower _ _ _ _ _ E1 H H' _). intros v (p & q & Hp & Hq & Ev). exists p, q. auto.
  Qed.
  Lemma lift2_iso b (x y x' y' : arg N) a' : aproper x -> aproper y -> ale x x' -> ale y y' -> domain2 b y' -> lift2 dbg b x' y' = Ret a' -> aproper a' ->
    (exists a, lift2 dbg b x y = Ret a /\ aproper a /\ ale a a') /\ domain2 b y.
  Proof.
    intros Hx Hy Lx Ly Dm E Ha. pose proof (ale_sub x x' Lx) as Sx. pose proof (ale_sub y y' Ly) as Sy.
    assert (G : (lift2 dbg b x' y' = (R <- ibin dbg b x' y' ;; Ret (Iv R)) -> lift2 dbg b x y = (R <- ibin dbg b x y ;; Ret (Iv R)) ->
                (exists a, lift2 dbg b x y = Ret a /\ aproper a /\ ale a a') /\ domain2 b y)).
    { intros E1 E2. rewrite E1 in E. apply bind_inv in E as (Z' & E & K). injection K as <-.
      destruct (ibin_iso b x y x' y' Z' Hx Hy Sx Sy Dm E Ha) as [(Z & EZ & PZ & SZ) Dn]. split; [|exact Dn]. exists (Iv Z). rewrite E2, EZ. split; [reflexivity|]. split; [exact PZ|exact SZ]. }
    destruct x as [c|X], x' as [c'|X']; try (exfalso; exact Lx); destruct y as [d|Y], y' as [d'|Y']; try (exfalso; exact Ly); try (apply G; reflexivity).
    destruct Lx, Ly. split; [|exact Dm]. exists a'. split; [exact E|]. split; [exact Ha|]. cbn in E. apply bind_inv in E as (r & _ & E). injection E as <-. reflexivity.
  Qed.

  Lemma lift_if_iso (c c' : cond N) (x y x' y' : arg N) a' : wfc c -> wfc c' -> cle c c' -> aproper x -> aproper y -> ale x x' -> ale y y' -> lift_if c' x' y' = Ret a' ->
    exists a, lift_if c x y = Ret a /\ aproper a /\ ale a a'.
  Proof.
    intros W W' Lc Hx Hy Lx Ly E. pose proof (ale_sub x x' Lx) as Sx. pose proof (ale_sub y y' Ly) as Sy.
    pose proof (asubset_aproper HO _ _ Hx Sx) as Hx'. pose proof (asubset_aproper HO _ _ Hy Sy) as Hy'.
    assert (Ai : forall z : arg N, forall v, el (as_ivl z) v <-> ael z v) by (intros [q|Q] v; reflexivity).
    assert (G : lift_if c' x' y' = (R <- iif_else (cset c') (as_ivl x') (as_ivl y') ;; Ret (Iv R)) -> lift_if c x y = (R <- iif_else (cset c) (as_ivl x) (as_ivl y) ;; Ret (Iv R)) ->
                exists a, lift_if c x y = Ret a /\ aproper a /\ ale a a').
    { intros E1 E2. rewrite E1 in E. apply bind_inv in E as (Z' & E & K). injection K as <-.
      destruct (if_else_hull HN (cset c) (as_ivl x) (as_ivl y) (as_ivl_proper x Hx) (as_ivl_proper y Hy)) as (Z & EZ & H & _).
      destruct (if_else_hull HN (cset c') (as_ivl x') (as_ivl y') (as_ivl_proper x' Hx') (as_ivl_proper y' Hy')) as (Z1 & EZ1 & H' & _). rewrite E in EZ1. injection EZ1 as <-.
      specialize (H (proj2 (wfc_wf HO c W))). specialize (H' (proj2 (wfc_wf HO c' W'))). exists (Iv Z). rewrite E2, EZ. split; [reflexivity|].
      split; [exact (is_hull_proper HO _ Z H)|]. apply (is_hull_least HO _ Z H). intros v Hv. apply H'. pose proof (cle_set c c' Lc) as B.
      destruct Hv as [[Hb Hv]|[Hb Hv]]; [left|right]; (split; [now apply B|]); apply Ai; apply Ai in Hv; auto. }
    destruct c, c'; try (exfalso; exact Lc); destruct x as [p|X], x' as [p'|X']; try (exfalso; exact Lx); destruct y as [q|Y], y' as [q'|Y']; try (exfalso; exact Ly); try (apply G; reflexivity).
    - destruct Lc. injection E as <-. eexists. split; [reflexivity|]. destruct b; split; assumption.
    - destruct Lc. injection E as <-. eexists. split; [reflexivity|]. destruct b; split; assumption.
  Qed.

  (** ** Tests *)
  Lemma operand_iso (e : expr N) x x' : ale x x' -> ole (operand_for e x) (operand_for e x').
  Proof. intros L. destruct e; try exact L. destruct x, x'; try exact L. split; [reflexivity|exact L]. Qed.
  Lemma operand_arg (e : expr N) x : op_arg (operand_for e x) = x.
  Proof. destruct e; try reflexivity. now destruct x. Qed.
  Lemma rel_exact_ble (h : N -> N -> bool) (v v' : bset) (x y x' y' : arg N) : rel_exact h v x y -> rel_exact h v' x' y' -> asubset x x' -> asubset y y' -> ble v v'.
  Proof. intros [_ H] [_ H'] Sx Sy t Ht. apply H'. apply H in Ht as (p & q & Hp & Hq & E). exists p, q. auto. Qed.
  Lemma rel_wfc_for r (e f : expr N) x y : aproper x -> aproper y -> exists c, c_rel dbg r (operand_for e x) (operand_for f y) = Ret c /\ wfc c.
  Proof.
    intros Hx Hy. rewrite c_rel_build. destruct (build_ok HO dbg _ (rel_form_legal r e f x y Hx Hy)) as (c & E & W & _). eauto.
  Qed.
  Lemma rel_iso r (e f : expr N) x y x' y' c' : aproper x -> aproper y -> ale x x' -> ale y y' -> c_rel dbg r (operand_for e x') (operand_for f y') = Ret c' ->
    wfc c' /\ exists c, c_rel dbg r (operand_for e x) (operand_for f y) = Ret c /\ wfc c /\ cle c c'.
  Proof.
    intros Hx Hy Lx Ly E'. pose proof (asubset_aproper HO _ _ Hx (ale_sub x x' Lx)) as Hx'. pose proof (asubset_aproper HO _ _ Hy (ale_sub y y' Ly)) as Hy'.
    destruct (rel_wfc_for r e f x y Hx Hy) as (c & E & W), (rel_wfc_for r e f x' y' Hx' Hy') as (c1 & E1 & W'). rewrite E' in E1. injection E1 as <-.
    split; [exact W'|]. exists c. split; [exact E|]. split; [exact W|].
    pose proof (operand_iso e x x' Lx) as Ol. pose proof (operand_iso f y y' Ly) as Or. revert E E' Ol Or.
    generalize (operand_for e x) (operand_for e x') (operand_for f y) (operand_for f y'). intros l l' s s' E E' Ol Or.
    pose proof (ale_sub _ _ (ole_ale _ _ Ol)) as Sl. pose proof (ale_sub _ _ (ole_ale _ _ Or)) as Sr.
    assert (P : (exists p q, l = OpVal (Sc p) /\ s = OpVal (Sc q)) \/ ~ (exists p q, l = OpVal (Sc p) /\ s = OpVal (Sc q))).
    { destruct l as [i X|[p|X]]; [right; intros (? & ? & ? & _); discriminate| |right; intros (? & ? & ? & _); discriminate].
      destruct s as [i X|[q|X]]; [right; intros (? & ? & _ & ?); discriminate| |right; intros (? & ? & _ & ?); discriminate]. left. eauto. }
    destruct P as [(p & q & -> & ->)|P].
    - destruct l' as [i X|[p'|X]]; try destruct Ol. destruct s' as [i X|[q'|X]]; try destruct Or. rewrite E in E'. injection E' as <-. cbn in E. injection E as <-. reflexivity.
    - assert (A : c_rel dbg r l s = match r with REq => c_eq dbg l s | RNe => c_ne dbg l s | RLt => c_lt dbg l s | RLe => c_le dbg l s | RGt => c_gt dbg l s | RGe => c_ge dbg l s end).
      { destruct l as [i X|[p|X]]; try reflexivity. destruct s as [i X|[q|X]]; try reflexivity. destruct P. eauto. }
      assert (A' : c_rel dbg r l' s' = match r with REq => c_eq dbg l' s' | RNe => c_ne dbg l' s' | RLt => c_lt dbg l' s' | RLe => c_le dbg l' s' | RGt => c_gt dbg l' s' | RGe => c_ge dbg l' s' end).
      { destruct l' as [i X|[p|X]]; try reflexivity. destruct s' as [j Y|[q|Y]]; try reflexivity. destruct P.
        destruct l as [i X|[p'|X]]; try (exfalso; exact Ol). destruct s as [i X|[q'|X]]; try (exfalso; exact Or). eauto. }
      rewrite A in E. rewrite A' in E'. destruct r; apply bind_inv in E as (v & _ & E); injection E as <-; apply bind_inv in E' as (v' & _ & E'); injection E' as <-;
        destruct W as (_ & _ & W), W' as (_ & _ & W'); (split; [exact (rel_exact_ble _ _ _ _ _ _ _ W W' ltac:(assumption) ltac:(assumption))|split; assumption]).
  Qed.

  Lemma lookup_iso (V V' : list (arg N)) i x' : Forall2 ale V V' -> ilookup V' i = Ret x' -> exists x, ilookup V i = Ret x /\ ale x x'.
  Proof.
    intros H. revert i. induction H as [|a v V V' H _ IH]; intros [|i] E; unfold ilookup in E; cbn in E; try discriminate.
    - injection E as <-. exists a. split; [reflexivity|exact H].
    - exact (IH i E).
  Qed.
  Lemma lookup_proper (V : list (arg N)) i x : Forall aproper V -> ilookup V i = Ret x -> aproper x.
  Proof. intros H. unfold ilookup. destruct (nth_error V i) eqn:E; [|discriminate]. intros K. injection K as <-. rewrite Forall_forall in H. exact (H _ (nth_error_In _ _ E)). Qed.
  Lemma number_ret (x : arg N) : aproper x -> number (Ret x). Proof. intros H y E. now injection E as <-. Qed.

  Lemma eval_iso V V' : Forall aproper V -> Forall2 ale V V' ->
    (forall e : expr N, eclean M dbg V' e -> efuns (monotone M) e -> forall a', ieval M dbg V' e = Ret a' ->
      eclean M dbg V e /\ exists a, ieval M dbg V e = Ret a /\ aproper a /\ ale a a')
    /\ (forall t : test N, tclean M dbg V' t -> tfuns (monotone M) t -> forall c', itest M dbg V' t = Ret c' ->
      tclean M dbg V t /\ wfc c' /\ exists c, itest M dbg V t = Ret c /\ wfc c /\ cle c c').
  Proof.
    intros PV HV. apply expr_test_ind.
    - intros i _ _ x' E'. destruct (lookup_iso V V' i x' HV E') as (x & E & L). pose proof (lookup_proper V i x PV E) as P. split.
      + split; [|exact I]. change (number (ilookup V i)). rewrite E. exact (number_ret x P).
      + exists x. split; [exact E|]. split; assumption.
    - intros c [Cl _] _ x' E'. injection E' as <-. pose proof (Cl (Sc c) eq_refl) as P. split; [split; [exact (number_ret _ P)|exact I]|]. exists (Sc c). split; [reflexivity|]. split; [exact P|reflexivity].
    - intros u e IH Cl Fu a' E'. pose proof (eclean_number dbg V' (EUn u e) a' Cl E') as Ha. step_in E'. destruct Cl as (_ & Cl & Dm), Fu as [Fu Fe]. apply bind_inv in E' as (x' & Ex' & E').
      destruct (IH Cl Fe x' Ex') as (Ce & x & Ex & Px & Lx). destruct (lift1_iso u x x' a' Px Lx (Dm x' Ex') Fu E' Ha) as [(a & Ea & Pa & La) Dn].
      assert (E : ieval M dbg V (EUn u e) = Ret a) by (rewrite ieval_un, Ex; exact Ea). split; [|eauto].
      split; [rewrite E; exact (number_ret a Pa)|]. split; [exact Ce|]. intros z Ez. rewrite Ex in Ez. injection Ez as <-. exact Dn.
    - intros b e IHe f IHf Cl Fu a' E'. pose proof (eclean_number dbg V' (EBin b e f) a' Cl E') as Ha. step_in E'. destruct Cl as (_ & Ce & Cf & Dm), Fu as [Fe Ff].
      apply bind_inv in E' as (x' & Ex' & E'). apply bind_inv in E' as (y' & Ey' & E'). destruct (IHe Ce Fe x' Ex') as (Ke & x & Ex & Px & Lx), (IHf Cf Ff y' Ey') as (Kf & y & Ey & Py & Ly).
      destruct (lift2_iso b x y x' y' a' Px Py Lx Ly (Dm y' Ey') E' Ha) as [(a & Ea & Pa & La) Dn].
      assert (E : ieval M dbg V (EBin b e f) = Ret a) by (rewrite ieval_bin, Ex, Ey; exact Ea). split; [|eauto].
      split; [rewrite E; exact (number_ret a Pa)|]. split; [exact Ke|]. split; [exact Kf|]. intros z Ez. rewrite Ey in Ez. injection Ez as <-. exact Dn.
    - intros t IHt e IHe f IHf Cl Fu a' E'. step_in E'. destruct Cl as (_ & Ct & Ce & Cf), Fu as (Ft & Fe & Ff).
      apply bind_inv in E' as (c' & Ec' & E'). apply bind_inv in E' as (x' & Ex' & E'). apply bind_inv in E' as (y' & Ey' & E').
      destruct (IHt Ct Ft c' Ec') as (Kt & W' & c & Ec & W & L), (IHe Ce Fe x' Ex') as (Ke & x & Ex & Px & Lx), (IHf Cf Ff y' Ey') as (Kf & y & Ey & Py & Ly).
      destruct (lift_if_iso c c' x y x' y' a' W W' L Px Py Lx Ly E') as (a & Ea & Pa & La).
      assert (E : ieval M dbg V (EIf t e f) = Ret a) by (rewrite ieval_if, Ec, Ex, Ey; exact Ea). split; [|eauto].
      split; [rewrite E; exact (number_ret a Pa)|]. auto.
    - intros r e IHe f IHf [Ce Cf] [Fe Ff] c' E'. step_in E'. apply bind_inv in E' as (x' & Ex' & E'). apply bind_inv in E' as (y' & Ey' & E').
      destruct (IHe Ce Fe x' Ex') as (Ke & x & Ex & Px & Lx), (IHf Cf Ff y' Ey') as (Kf & y & Ey & Py & Ly). split; [split; assumption|].
      destruct (rel_iso r e f x y x' y' c' Px Py Lx Ly E') as (W' & c & Ec & W & L). split; [exact W'|]. exists c. rewrite itest_rel, Ex, Ey. auto.
    - intros t IH Cl Fu c' E'. step_in E'. apply bind_inv in E' as (d' & Ed' & E'). destruct (IH Cl Fu d' Ed') as (K & W' & d & Ed & W & L). split; [exact K|].
      destruct (c_not_ok HO dbg d W) as (c & Ec & Wc & _), (c_not_ok HO dbg d' W') as (c1 & Ec1 & Wc' & _). rewrite E' in Ec1. injection Ec1 as <-.
      split; [exact Wc'|]. exists c. rewrite itest_not, Ed. split; [exact Ec|]. split; [exact Wc|]. exact (c_not_cle HO dbg d d' c c' W W' L Ec E').
    - intros t IHt u IHu [Ct Cu] [Ft Fu] c' E'. step_in E'. apply bind_inv in E' as (p' & Ep' & E'). apply bind_inv in E' as (q' & Eq' & E'). injection E' as <-.
      destruct (IHt Ct Ft p' Ep') as (Kt & Wp' & p & Ep & Wp & Lp), (IHu Cu Fu q' Eq') as (Ku & Wq' & q & Eq & Wq & Lq). split; [split; assumption|].
      split; [apply (c_and_ok HO); assumption|]. exists (c_and p q). rewrite itest_and, Ep, Eq. split; [reflexivity|]. split; [apply (c_and_ok HO); assumption|].
      exact (c_and_cle HO p q p' q' Wp Wq Wp' Wq' Lp Lq).
    - intros t IHt u IHu [Ct Cu] [Ft Fu] c' E'. step_in E'. apply bind_inv in E' as (p' & Ep' & E'). apply bind_inv in E' as (q' & Eq' & E'). injection E' as <-.
      destruct (IHt Ct Ft p' Ep') as (Kt & Wp' & p & Ep & Wp & Lp), (IHu Cu Fu q' Eq') as (Ku & Wq' & q & Eq & Wq & Lq). split; [split; assumption|].
      split; [apply (c_or_ok HO); assumption|]. exists (c_or p q). rewrite itest_or, Ep, Eq. split; [reflexivity|]. split; [apply (c_or_ok HO); assumption|].
      exact (c_or_cle HO p q p' q' Wp Wq Wp' Wq' Lp Lq).
  Qed.
End Iso.
