(** Properties of sets, four-valued logic and sign sets (C01-C07, parts of C37 and C52).
    Only statements; every proof is a lemma of SetProofs.v / SetProofs2.v. *)
From Coq Require Import List NArith ZArith Bool.
From Verif Require Import Outcome SetModel Spec SetProofs SetProofs2.
Import ListNotations.

(** An enumeration with four listed values and one value that the reflection metadata does not list; used in examples. *)
Inductive color := red | green | blue | black | unlisted_color.
Definition color_eqb (a b : color) : bool :=
  match a, b with red, red | green, green | blue, blue | black, black | unlisted_color, unlisted_color => true | _, _ => false end.
Definition color_enum : enum_type := {| ev := color; ev_eqb := color_eqb; ev_values := [red; green; blue; black] |}.
Example color_enum_ok : enum_ok color_enum.
Proof. split; [intros [] []; cbn; split; congruence|]. repeat constructor; cbn; intuition discriminate. Qed.

(** ** C01 *)
Theorem C01_connectives_exact : forall x y : bset, wf_set x -> wf_set y -> forall t : bool,
  (member (band x y) t <-> ext2 andb (member x) (member y) t)
  /\ (member (bor x y) t <-> ext2 orb (member x) (member y) t)
  /\ (member (bxor x y) t <-> ext2 xorb (member x) (member y) t).
Proof. exact (fun x y Hx Hy t => conj (band_exact x y Hx Hy t) (conj (bor_exact x y Hx Hy t) (bxor_exact x y Hx Hy t))). Qed.
Print Assumptions C01_connectives_exact.
Example C01_connectives_example : wf_set bset_both /\ wf_set (bset_of true) /\ member (bxor bset_both (bset_of true)) false.
Proof. split; [repeat apply bassign_wf; apply wf_empty|]. split; [apply bset_of_wf|]. apply bmember_iff. reflexivity. Qed.

(** Mixed set/bool operands behave as if the bool were the singleton set. *)
Theorem C01_mixed_operands : forall (x : bset) (b : bool), wf_set x -> forall t : bool,
  (member (band_sb x b) t <-> ext2 andb (member x) (eq b) t)
  /\ (member (band_bs b x) t <-> ext2 andb (eq b) (member x) t)
  /\ (member (bor_sb x b) t <-> ext2 orb (member x) (eq b) t)
  /\ (member (bor_bs b x) t <-> ext2 orb (eq b) (member x) t)
  /\ (member (bxor_sb x b) t <-> ext2 xorb (member x) (eq b) t)
  /\ (member (bxor_bs b x) t <-> ext2 xorb (eq b) (member x) t).
Proof. exact mixed_connectives. Qed.
Print Assumptions C01_mixed_operands.
Example C01_mixed_example : member (bor_bs false bset_both) true /\ member (bor_bs false bset_both) false.
Proof. split; apply bmember_iff; reflexivity. Qed.

Theorem C01_negation_exact : forall (dbg : bool) (x r : bset), wf_set x -> bnot dbg x = Ret r ->
  forall t : bool, member r t <-> ext1 negb (member x) t.
Proof. exact bnot_exact. Qed.
Print Assumptions C01_negation_exact.
(** Negation of an empty set: fails fast in debug mode, returns the empty set in release mode. *)
Theorem C01_negation_defined : forall x : bset, wf_set x ->
  (exists r, bnot false x = Ret r) /\ ((exists r, bnot true x = Ret r) <-> exists t, member x t).
Proof. exact (fun x H => conj (bnot_release x H) (bnot_debug x H)). Qed.
Print Assumptions C01_negation_defined.
Example C01_negation_example : bnot true (bset_of true) = Ret (bset_of false).
Proof. reflexivity. Qed.

(** Formulas of any size: the computed set contains the value of the formula under every choice of members, and nothing
    else if no variable is used twice. *)
Theorem C01_formula_sound : forall dbg (s : nat -> bset) (f : form) (r : bset) (rho : nat -> bool),
  (forall n, wf_set (s n)) -> (forall n, In n (form_vars f) -> member (s n) (rho n)) ->
  form_set dbg s f = Ret r -> member r (form_bool rho f).
Proof. exact form_sound. Qed.
Print Assumptions C01_formula_sound.
Theorem C01_formula_exact : forall dbg (s : nat -> bset) (f : form) (r : bset),
  (forall n, wf_set (s n)) -> NoDup (form_vars f) -> form_set dbg s f = Ret r ->
  forall t : bool, member r t <->
    exists rho : nat -> bool, (forall n, In n (form_vars f) -> member (s n) (rho n)) /\ form_bool rho f = t.
Proof. exact form_exact. Qed.
Print Assumptions C01_formula_exact.
Theorem C01_formula_total : forall dbg (s : nat -> bset) (f : form),
  (forall n, wf_set (s n)) -> (forall n, In n (form_vars f) -> exists b, member (s n) b) ->
  exists r, form_set dbg s f = Ret r /\ exists b, member r b.
Proof. exact form_total. Qed.
Print Assumptions C01_formula_total.
Example C01_formula_example :
  let s := fun n => match n with O => bset_both | _ => bset_of true end in
  let f := FOr (FAnd (FVar 0) (FNot (FVar 1))) (FXor (FVar 2) (FVar 3)) in
  (forall n, wf_set (s n)) /\ NoDup (form_vars f) /\ form_set true s f = Ret (bset_of false).
Proof.
  repeat split; [intros [|n]; [repeat apply bassign_wf; apply wf_empty|apply bset_of_wf]|].
  repeat constructor; cbn; intuition discriminate.
Qed.

Theorem C01_laws : forall x y z : bset, wf_set x -> wf_set y -> wf_set z ->
  band x y = band y x /\ bor x y = bor y x /\ bxor x y = bxor y x
  /\ band x (band y z) = band (band x y) z /\ bor x (bor y z) = bor (bor x y) z /\ bxor x (bxor y z) = bxor (bxor x y) z
  /\ band x x = x /\ bor x x = x
  /\ band x (bor y z) = bor (band x y) (band x z) /\ bor x (band y z) = band (bor x y) (bor x z)
  /\ (nx <- bnot false x ;; bnot false nx) = Ret x
  /\ bnot false (band x y) = (nx <- bnot false x ;; ny <- bnot false y ;; Ret (bor nx ny))
  /\ bnot false (bor x y) = (nx <- bnot false x ;; ny <- bnot false y ;; Ret (band nx ny)).
Proof. exact logic_laws. Qed.
Print Assumptions C01_laws.
Example C01_laws_example : band bset_both (bset_of true) = bset_both /\ wf_set bset_both.
Proof. split; [reflexivity|]. repeat apply bassign_wf; apply wf_empty. Qed.

(** ** C02: exact for < and >; >= and <= are wrong for one pair of operands *)
Theorem C02_strict_orderings_exact : forall x y : bset, wf_set x -> wf_set y -> forall t : bool,
  (member (bgt x y) t <-> ext2 (fun a b => bool_lt b a) (member x) (member y) t)
  /\ (member (blt x y) t <-> ext2 bool_lt (member x) (member y) t).
Proof. exact (fun x y Hx Hy t => conj (bgt_exact x y Hx Hy t) (blt_exact x y Hx Hy t)). Qed.
Print Assumptions C02_strict_orderings_exact.
(** Missing for the full property: the pair x = {false,true}, y = {true} for >= (swapped for <=), see the refutation. *)
Theorem C02_weak_orderings_partial : forall x y : bset, wf_set x -> wf_set y ->
  ~ (same_members x bset_both /\ same_members y (bset_of true)) -> forall t : bool,
  (member (bgeq x y) t <-> ext2 (fun a b => bool_le b a) (member x) (member y) t)
  /\ (member (bleq y x) t <-> ext2 bool_le (member y) (member x) t).
Proof. exact weak_orderings_but_one. Qed.
Print Assumptions C02_weak_orderings_partial.
Theorem C02_weak_orderings_refuted : exists x y : bset, wf_set x /\ wf_set y /\
  ext2 (fun a b => bool_le b a) (member x) (member y) false /\ ~ member (bgeq x y) false /\ ~ member (bleq y x) false.
Proof. exact weak_orderings_refuted. Qed.
Print Assumptions C02_weak_orderings_refuted.
(** x >= y is not the negation of x < y. *)
Theorem C02_negation_refuted : exists x y : bset, wf_set x /\ wf_set y /\ bnot false (blt x y) <> Ret (bgeq x y).
Proof. exact geq_not_negated_lt. Qed.
Print Assumptions C02_negation_refuted.
Theorem C02_mixed_operands : forall (x : bset) (b : bool), wf_set x ->
  bgt_sb x b = bgt x (bset_of b) /\ bgt_bs b x = bgt (bset_of b) x
  /\ blt_sb x b = blt x (bset_of b) /\ blt_bs b x = blt (bset_of b) x
  /\ bgeq_sb x b = bgeq x (bset_of b) /\ bgeq_bs b x = bgeq (bset_of b) x
  /\ bleq_sb x b = bleq x (bset_of b) /\ bleq_bs b x = bleq (bset_of b) x.
Proof. exact mixed_orderings. Qed.
Print Assumptions C02_mixed_operands.
Example C02_example : ~ (same_members bset_both bset_both /\ same_members (bset_of false) (bset_of true))
  /\ member (bgeq bset_both (bset_of false)) true /\ ~ member (bgeq bset_both (bset_of false)) false.
Proof.
  split; [|split; rewrite bmember_iff; [reflexivity|discriminate]].
  intros [_ H]. pose proof (proj1 (H true)) as H1. specialize (H true). apply proj2 in H. rewrite !bset_of_member in H. discriminate (H eq_refl).
Qed.

(** ** C03 *)
Theorem C03_projections : forall c : bset, wf_set c ->
  (possibly c = true <-> member c true) /\ (possibly_not c = true <-> member c false)
  /\ (always c = true <-> ~ member c false) /\ (never c = true <-> ~ member c true)
  /\ (contingent c = true <-> member c true /\ member c false)
  /\ (vacuous c = true <-> forall t, ~ member c t).
Proof. exact projections. Qed.
Print Assumptions C03_projections.
Theorem C03_trichotomy : forall c : bset, wf_set c -> (exists t, member c t) ->
  (always c = true /\ never c = false /\ contingent c = false)
  \/ (always c = false /\ never c = true /\ contingent c = false)
  \/ (always c = false /\ never c = false /\ contingent c = true).
Proof. exact projection_trichotomy. Qed.
Print Assumptions C03_trichotomy.
Theorem C03_negation : forall dbg (c n : bset), wf_set c -> bnot dbg c = Ret n ->
  possibly n = possibly_not c /\ possibly_not n = possibly c /\ always n = never c /\ never n = always c
  /\ contingent n = contingent c /\ vacuous n = vacuous c.
Proof. exact projection_negation. Qed.
Print Assumptions C03_negation.
Theorem C03_bool_agrees : forall b : bool,
  possibly_b b = possibly (bset_of b) /\ possibly_not_b b = possibly_not (bset_of b) /\ always_b b = always (bset_of b)
  /\ never_b b = never (bset_of b) /\ contingent_b b = contingent (bset_of b) /\ vacuous_b b = vacuous (bset_of b).
Proof. exact projection_bool. Qed.
Print Assumptions C03_bool_agrees.
Example C03_example : wf_set bset_both /\ contingent bset_both = true /\ always bset_both = false /\ bnot true (bset_of true) = Ret (bset_of false).
Proof. split; [repeat apply bassign_wf; apply wf_empty|]. repeat split. Qed.

(** ** C04 *)
Theorem C04_history : forall (E : enum_type), enum_ok E -> forall dbg (ops : list (set_op E)),
  Forall set_op_wf ops -> Forall (set_op_legal dbg) ops ->
  exists s, set_run dbg set_empty ops = Ret s /\
    (forall v, In v (ev_values E) -> exists b, set_contains s v = Ret b /\ (b = true <-> given_since_reset ops v)).
Proof. exact (@set_history_contains). Qed.
Print Assumptions C04_history.
(** An operation with an unlisted value (or, in debug mode, an assignment of an empty set) ends in a fail-fast. *)
Theorem C04_illegal_failfast : forall (E : enum_type), enum_ok E -> forall dbg (ops : list (set_op E)),
  Forall set_op_wf ops -> ~ Forall (set_op_legal dbg) ops -> set_run dbg set_empty ops = FailFast.
Proof. exact (@set_history_illegal). Qed.
Print Assumptions C04_illegal_failfast.
(** Order and multiplicity do not matter: the object depends only on which values were given. *)
Theorem C04_order_irrelevant : forall (E : enum_type), enum_ok E -> forall dbg1 dbg2 (ops1 ops2 : list (set_op E)) s1 s2,
  Forall set_op_wf ops1 -> Forall set_op_wf ops2 ->
  (forall v, given_since_reset ops1 v <-> given_since_reset ops2 v) ->
  set_run dbg1 set_empty ops1 = Ret s1 -> set_run dbg2 set_empty ops2 = Ret s2 -> s1 = s2.
Proof. exact (@set_history_unique). Qed.
Print Assumptions C04_order_irrelevant.
Theorem C04_unlisted_contains : forall (E : enum_type), enum_ok E -> forall (s : vset E) v,
  ~ In v (ev_values E) -> set_contains s v = FailFast.
Proof. exact (@contains_unlisted). Qed.
Print Assumptions C04_unlisted_contains.
Theorem C04_initializer_list : forall (E : enum_type), enum_ok E -> forall l : list E,
  (forall v, In v l -> In v (ev_values E)) ->
  exists s, set_of_list l = Ret s /\ wf_set s /\ forall v, member s v <-> In v l.
Proof. exact (@set_of_list_spec). Qed.
Print Assumptions C04_initializer_list.
Theorem C04_bits_roundtrip : forall (E : enum_type) (s : vset E), wf_set s -> (num_values E <= 64)%nat ->
  exists b, to_bits s = Ret b /\ @from_bits E b = s.
Proof. exact (@bits_roundtrip_64). Qed.
Print Assumptions C04_bits_roundtrip.
Theorem C04_from_to_bits : forall (E : enum_type), (num_values E <= 64)%nat -> forall b : N,
  (b < 2 ^ N.of_nat (num_values E))%N -> to_bits (@from_bits E b) = Ret b.
Proof. exact (@to_bits_from_bits_small). Qed.
Print Assumptions C04_from_to_bits.
Example C04_example :
  let ops := [@SAssignValue color_enum red; SReset; @SAssignValue color_enum blue; SAssignSet (mkset 2); @SAssignValue color_enum blue] in
  Forall set_op_wf ops /\ Forall (set_op_legal true) ops /\ set_run true set_empty ops = Ret (mkset 6)
  /\ ~ Forall (set_op_legal true) [@SAssignValue color_enum unlisted_color].
Proof.
  repeat split.
  - repeat constructor. exact (wf_from_bits 2).
  - apply Forall_cons; [cbn; auto|]. apply Forall_cons; [exact I|]. apply Forall_cons; [cbn; auto|].
    apply Forall_cons; [right; exists green, 1%nat; split; reflexivity|]. apply Forall_cons; [cbn; auto|constructor].
  - intros H. inversion H; subst. cbn in H2. intuition discriminate.
Qed.

(** ** C05 *)
Theorem C05_equality_exact : forall (E : enum_type), enum_ok E -> forall dbg (x y : vset E),
  wf_set x -> wf_set y -> (exists v, member x v) -> (exists v, member y v) ->
  exists r, set_eq dbg x y = Ret r /\ wf_set r
    /\ (member r true <-> exists v, member x v /\ member y v)
    /\ (member r false <-> exists v w, member x v /\ member y w /\ v <> w).
Proof. exact (@set_eq_exact). Qed.
Print Assumptions C05_equality_exact.
Theorem C05_inequality_exact : forall (E : enum_type), enum_ok E -> forall dbg (x y : vset E),
  wf_set x -> wf_set y -> (exists v, member x v) -> (exists v, member y v) ->
  exists r, set_neq dbg x y = Ret r /\ wf_set r
    /\ (member r false <-> exists v, member x v /\ member y v)
    /\ (member r true <-> exists v w, member x v /\ member y w /\ v <> w).
Proof. exact (@set_neq_exact). Qed.
Print Assumptions C05_inequality_exact.
Theorem C05_unassigned_debug : forall (E : enum_type) (x y : vset E), wf_set x -> wf_set y ->
  ((forall v, ~ member x v) \/ (forall v, ~ member y v)) -> set_eq true x y = FailFast /\ set_neq true x y = FailFast.
Proof. exact (@set_eq_debug_empty). Qed.
Print Assumptions C05_unassigned_debug.
Example C05_example : set_eq true (@mkset color_enum 6) (mkset 3) = Ret bset_both
  /\ member (@mkset color_enum 6) blue /\ member (@mkset color_enum 3) red.
Proof. repeat split; [exists 2%nat|exists 0%nat]; split; reflexivity. Qed.

(** ** C06 *)
Theorem C06_value : forall (E : enum_type), enum_ok E -> forall dbg (s : vset E), wf_set s -> forall v,
  set_value dbg s = Ret v <-> only_member s v.
Proof. exact (@set_value_iff). Qed.
Print Assumptions C06_value.
Theorem C06_value_failfast : forall (E : enum_type), enum_ok E -> forall dbg (s : vset E), wf_set s ->
  (~ exists v, only_member s v) -> set_value dbg s = FailFast.
Proof. exact (@set_value_else). Qed.
Print Assumptions C06_value_failfast.
Theorem C06_contains_set : forall (E : enum_type), enum_ok E -> forall s t : vset E, wf_set s -> wf_set t ->
  (set_contains_set s t = true <-> forall v, member t v -> member s v)
  /\ (set_matches_set s t = true <-> same_members s t).
Proof. exact (@contains_matches). Qed.
Print Assumptions C06_contains_set.
Theorem C06_contains_value : forall (E : enum_type), enum_ok E -> forall (s : vset E) v, wf_set s -> In v (ev_values E) ->
  (exists b, set_contains s v = Ret b /\ (b = true <-> member s v))
  /\ (exists b, set_matches s v = Ret b /\ (b = true <-> only_member s v)).
Proof. exact (@contains_matches_value). Qed.
Print Assumptions C06_contains_value.
Example C06_example : set_value true (@mkset color_enum 4) = Ret blue /\ set_value true (@mkset color_enum 6) = FailFast
  /\ set_contains_set (@mkset color_enum 6) (mkset 4) = true /\ set_matches (@mkset color_enum 6) blue = Ret false.
Proof. repeat split. Qed.

(** ** C07 (sign sets; intervals in PropertiesArith.v) *)
Theorem C07_sign_negation_exact : forall x : sset, wf_set x -> forall s, member (sset_neg x) s <-> ext1 sign_neg (member x) s.
Proof. exact sset_neg_exact. Qed.
Print Assumptions C07_sign_negation_exact.
Theorem C07_sign_product_exact : forall x y : sset, wf_set x -> wf_set y -> (exists s, member x s) -> (exists s, member y s) ->
  forall s, member (sset_mul x y) s <-> ext2 sign_mul (member x) (member y) s.
Proof. exact sset_mul_exact. Qed.
Print Assumptions C07_sign_product_exact.
Theorem C07_sign_product_mixed : forall (x : sset) (b : sign), wf_set x -> (exists s, member x s) -> forall s,
  (member (sset_mul_sv x b) s <-> ext2 sign_mul (member x) (eq b) s)
  /\ (member (sset_mul_vs b x) s <-> ext2 sign_mul (eq b) (member x) s).
Proof. exact sset_mul_mixed. Qed.
Print Assumptions C07_sign_product_mixed.
(** The scalar operations on signs are those of the integers -1, 0, 1. *)
Theorem C07_scalar_signs : forall a b : sign,
  int_of_sign (sign_neg a) = (- int_of_sign a)%Z /\ int_of_sign (sign_mul a b) = (int_of_sign a * int_of_sign b)%Z.
Proof. exact sign_ops_int. Qed.
Print Assumptions C07_scalar_signs.
Example C07_example : wf_set (sset_of negative_sign) /\ member (sset_mul (sassign (sset_of negative_sign) zero_sign) (sset_of negative_sign)) positive_sign.
Proof. split; [apply sset_of_wf|]. apply smember_iff. reflexivity. Qed.

(** ** C37, for sets *)
Theorem C37_set_if_else : forall (E : enum_type) dbg (c : bset) (t f : vset E), wf_set c -> wf_set t -> wf_set f ->
  (dbg = true -> (member c true -> exists v, member t v) /\ (member c false -> exists v, member f v)) ->
  exists r, set_if_else dbg c t f = Ret r /\ wf_set r
    /\ forall v, member r v <-> (member c true /\ member t v) \/ (member c false /\ member f v).
Proof. exact (@set_if_else_spec). Qed.
Print Assumptions C37_set_if_else.
Example C37_set_example : set_if_else true bset_both (@mkset color_enum 1) (mkset 4) = Ret (mkset 5).
Proof. reflexivity. Qed.

(** ** C52, for sets *)
Theorem C52_set_output : forall (E : enum_type), enum_ok E -> forall s : vset E, wf_set s -> exists l : list E,
  set_print s = TOpen :: (separated l ++ [TClose])%list /\ NoDup l /\ (forall v, In v l <-> member s v)
  /\ exists flags : list bool, length flags = length (ev_values E) /\ l = map snd (filter fst (combine flags (ev_values E))).
Proof. exact (@set_print_spec). Qed.
Print Assumptions C52_set_output.
Example C52_set_example : set_print (@mkset color_enum 5) = [TOpen; @TVal color_enum red; TComma; @TVal color_enum blue; TClose].
Proof. reflexivity. Qed.
