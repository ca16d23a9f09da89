(** Debug and release builds (C53, C54), and constrain on scalars (C35). *)
From Coq Require Import Bool List ZArith.
From Flocq Require Import BinarySingleNaN.
From Verif Require Import Outcome SetModel Spec SetProofs Num NumLaws IntervalModel IntNum IterModel ConstrainModel AlgoModel MathModel FloatNum MathSpec DebugProofs DebugProofs2.
Import ListNotations.

(** ** C53 *)
Theorem C53_sets : forall (E : enum_type) (s t : vset E) (c : bset) (ops : list (set_op E)),
  agrees_or_fails (set_assign true s t) (set_assign false s t) /\ agrees_or_fails (set_value true s) (set_value false s)
  /\ agrees_or_fails (set_eq true s t) (set_eq false s t) /\ agrees_or_fails (set_neq true s t) (set_neq false s t)
  /\ agrees_or_fails (bnot true c) (bnot false c) /\ agrees_or_fails (set_if_else true c s t) (set_if_else false c s t)
  /\ agrees_or_fails (set_run true s ops) (set_run false s ops).
Proof.
  exact (fun E s t c ops => conj (af_set_assign s t) (conj (af_set_value s) (conj (af_set_eq s t) (conj (af_set_neq s t) (conj (af_bnot c) (conj (af_set_if_else c s t) (af_set_run s ops))))))).
Qed.
Print Assumptions C53_sets.
Theorem C53_order : forall (O : ordty) (X : ivl O) (x y : arg O),
  agrees_or_fails (lower true X) (lower false X) /\ agrees_or_fails (upper true X) (upper false X) /\ agrees_or_fails (iprint true X) (iprint false X)
  /\ agrees_or_fails (infimum true x) (infimum false x) /\ agrees_or_fails (supremum true x) (supremum false x)
  /\ agrees_or_fails (imin true x y) (imin false x y) /\ agrees_or_fails (imax true x y) (imax false x y)
  /\ agrees_or_fails (rel_eq true x y) (rel_eq false x y) /\ agrees_or_fails (rel_neq true x y) (rel_neq false x y)
  /\ agrees_or_fails (rel_lt true x y) (rel_lt false x y) /\ agrees_or_fails (rel_leq true x y) (rel_leq false x y)
  /\ agrees_or_fails (rel_gt true x y) (rel_gt false x y) /\ agrees_or_fails (rel_geq true x y) (rel_geq false x y).
Proof.
  exact (fun O X x y => conj (af_lower X) (conj (af_upper X) (conj (af_iprint X) (conj (af_infimum x) (conj (af_supremum x) (conj (af_imin x y) (conj (af_imax x y)
    (conj (af_rel_eq x y) (conj (af_rel_neq x y) (conj (af_rel_lt x y) (conj (af_rel_leq x y) (conj (af_rel_gt x y) (af_rel_geq x y))))))))))))).
Qed.
Print Assumptions C53_order.
Theorem C53_constrain : forall (O : ordty) xid (X : ivl O) (c : cond O),
  agrees_or_fails (c_not true c) (c_not false c) /\ agrees_or_fails (constrain true xid X c) (constrain false xid X c).
Proof. exact (fun O xid X c => conj (af_c_not c) (af_constrain xid X c)). Qed.
Print Assumptions C53_constrain.
Theorem C53_arithmetic : forall (N : num) (X : ivl N) (x y : arg N) (s : sset),
  agrees_or_fails (iplus true X) (iplus false X) /\ agrees_or_fails (ineg true X) (ineg false X)
  /\ agrees_or_fails (iadd true x y) (iadd false x y) /\ agrees_or_fails (isub true x y) (isub false x y)
  /\ agrees_or_fails (imul true x y) (imul false x y) /\ agrees_or_fails (idiv true x y) (idiv false x y)
  /\ agrees_or_fails (signs_mul_ivl true s X) (signs_mul_ivl false s X)
  /\ agrees_or_fails (isquare true X) (isquare false X) /\ agrees_or_fails (icube true X) (icube false X)
  /\ agrees_or_fails (iabs true X) (iabs false X) /\ agrees_or_fails (isgn true X) (isgn false X).
Proof.
  exact (fun N X x y s => conj (af_iplus X) (conj (af_ineg X) (conj (af_iadd x y) (conj (af_isub x y) (conj (af_imul x y) (conj (af_idiv x y) (conj (af_signs_mul s X)
    (conj (af_isquare X) (conj (af_icube X) (conj (af_iabs X) (af_isgn X))))))))))).
Qed.
Print Assumptions C53_arithmetic.
Theorem C53_math : forall (N : num) (M : math N) (X : ivl N) (x y : arg N),
  agrees_or_fails (isqrt M true X) (isqrt M false X) /\ agrees_or_fails (icbrt M true X) (icbrt M false X)
  /\ agrees_or_fails (ilog M true X) (ilog M false X) /\ agrees_or_fails (iexp M true X) (iexp M false X) /\ agrees_or_fails (ipow M true x y) (ipow M false x y)
  /\ agrees_or_fails (icos M true X) (icos M false X) /\ agrees_or_fails (isin M true X) (isin M false X) /\ agrees_or_fails (itan M true X) (itan M false X)
  /\ agrees_or_fails (iacos M true X) (iacos M false X) /\ agrees_or_fails (iasin M true X) (iasin M false X) /\ agrees_or_fails (iatan M true X) (iatan M false X)
  /\ agrees_or_fails (iatan2 M true y x) (iatan2 M false y x)
  /\ agrees_or_fails (ifloor M true X) (ifloor M false X) /\ agrees_or_fails (iceil M true X) (iceil M false X) /\ agrees_or_fails (iround M true X) (iround M false X)
  /\ agrees_or_fails (ifrac M true X) (ifrac M false X)
  /\ agrees_or_fails (iisinf true X) (iisinf false X) /\ agrees_or_fails (iisfinite true X) (iisfinite false X) /\ agrees_or_fails (iisnan true X) (iisnan false X).
Proof.
  exact (fun N M X x y => conj (af_isqrt M X) (conj (af_icbrt M X) (conj (af_ilog M X) (conj (af_iexp M X) (conj (af_ipow M x y)
    (conj (af_icos M X) (conj (af_isin M X) (conj (af_itan M X) (conj (af_iacos M X) (conj (af_iasin M X) (conj (af_iatan M X) (conj (af_iatan2 M y x)
    (conj (af_ifloor M X) (conj (af_iceil M X) (conj (af_iround M X) (conj (af_ifrac M X) (conj (af_iisinf X) (conj (af_iisfinite X) (af_iisnan X))))))))))))))))))).
Qed.
Print Assumptions C53_math.
Theorem C53_blend : forall N M, fp_math N M -> forall a b f x y : arg N,
  agrees_or_fails (iweights true a b) (iweights false a b) /\ agrees_or_fails (iblend_fractions true f x y) (iblend_fractions false f x y)
  /\ agrees_or_fails (iblend_linear true a b x y) (iblend_linear false a b x y).
Proof. exact (fun N M H a b f x y => conj (af_iweights H a b) (conj (af_blend_fractions f x y) (af_blend_linear H a b x y))). Qed.
Print Assumptions C53_blend.
Theorem C53_iterators : forall (n w : Z) (a b : arg (iter_ordty n)) (d : arg (int_ordty w)) (N : num) (r : list N) X (k : arg (int_ordty 64)),
  agrees_or_fails (it_add true a d) (it_add false a d) /\ agrees_or_fails (it_add_rev true d a) (it_add_rev false d a)
  /\ agrees_or_fails (it_sub true a d) (it_sub false a d) /\ agrees_or_fails (@it_diff n w true a b) (@it_diff n w false a b)
  /\ agrees_or_fails (subscript true r X k) (subscript false r X k).
Proof. exact (fun n w a b d N r X k => conj (af_it_add a d) (conj (af_it_add_rev d a) (conj (af_it_sub a d) (conj (af_it_diff a b) (af_subscript r X k))))). Qed.
Print Assumptions C53_iterators.
Theorem C53_partition : forall (O : ordty) (A : Type) xid (X : ivl O) (p : A -> outcome (cond O)) (r : list A) i,
  agrees_or_fails (part_constrain true xid X p r i) (part_constrain false xid X p r i).
Proof. exact (fun O A xid X p r i => af_part_constrain xid X p r i). Qed.
Print Assumptions C53_partition.
(** The predicate is assumed to return: debug builds evaluate it on elements that release builds do not look at. *)
Theorem C53_partition_scalar : forall (O : ordty) (A : Type) (x : O) (p : A -> outcome bool) (r : list A) i, (forall e, exists b, p e = Ret b) ->
  agrees_or_fails (part_constrain_scalar true x p r i) (part_constrain_scalar false x p r i).
Proof. exact (fun O A x p r i => af_part_scalar x p r i). Qed.
Print Assumptions C53_partition_scalar.
Definition back_to_front : ivl int32 := Ivl (i32 3) (i32 1).
Example C53_example : lower true back_to_front = FailFast /\ lower false back_to_front = Ret (i32 3)
  /\ iadd true (Iv back_to_front) (Sc (i32 1)) = FailFast /\ forall e : int32, exists b, lower_pred_scalar (i32 2) e = Ret b.
Proof. split; [reflexivity|]. split; [reflexivity|]. split; [reflexivity|]. intros e. eexists. reflexivity. Qed.

(** ** C54 *)
Theorem C54_bounds : forall (O : ordty) (X : ivl O), unassigned (Iv X) -> lower true X = FailFast /\ upper true X = FailFast /\ iprint true X = FailFast.
Proof. exact (fun O X => rj_bounds X). Qed.
Print Assumptions C54_bounds.
Theorem C54_extrema : forall (O : ordty) (x : arg O), unassigned x -> infimum true x = FailFast /\ supremum true x = FailFast.
Proof. exact (fun O x => rj_extrema x). Qed.
Print Assumptions C54_extrema.
Theorem C54_relations : forall (O : ordty) (x y : arg O), unassigned x \/ unassigned y ->
  rel_eq true x y = FailFast /\ rel_neq true x y = FailFast /\ rel_lt true x y = FailFast /\ rel_leq true x y = FailFast /\ rel_gt true x y = FailFast /\ rel_geq true x y = FailFast
  /\ imin true x y = FailFast /\ imax true x y = FailFast.
Proof. exact (fun O x y => rj_relations x y). Qed.
Print Assumptions C54_relations.
Theorem C54_arithmetic : forall (N : num) (x y : arg N), unassigned x \/ unassigned y ->
  iadd true x y = FailFast /\ isub true x y = FailFast /\ imul true x y = FailFast /\ idiv true x y = FailFast.
Proof. exact (fun N x y => rj_arith x y). Qed.
Print Assumptions C54_arithmetic.
Theorem C54_unary : forall (N : num) (X : ivl N), unassigned (Iv X) ->
  iplus true X = FailFast /\ ineg true X = FailFast /\ isquare true X = FailFast /\ icube true X = FailFast /\ iabs true X = FailFast /\ isgn true X = FailFast.
Proof. exact (fun N X => rj_unary X). Qed.
Print Assumptions C54_unary.
Theorem C54_math : forall (N : num) (M : math N) (X : ivl N), unassigned (Iv X) ->
  isqrt M true X = FailFast /\ icbrt M true X = FailFast /\ ilog M true X = FailFast /\ iexp M true X = FailFast /\ iacos M true X = FailFast /\ iasin M true X = FailFast /\ iatan M true X = FailFast
  /\ icos M true X = FailFast /\ itan M true X = FailFast /\ ifloor M true X = FailFast /\ iceil M true X = FailFast /\ iround M true X = FailFast /\ ifrac M true X = FailFast
  /\ iisinf true X = FailFast /\ iisfinite true X = FailFast /\ iisnan true X = FailFast.
Proof. exact (fun N M X => rj_math M X). Qed.
Print Assumptions C54_math.
Theorem C54_sin : forall N M, fp_math N M -> forall X : ivl N, unassigned (Iv X) -> isin M true X = FailFast.
Proof. exact (fun N M H X => rj_sin M X H). Qed.
Print Assumptions C54_sin.
Theorem C54_math2 : forall (N : num) (M : math N) (x y : arg N), unassigned x \/ unassigned y -> ipow M true x y = FailFast /\ iatan2 M true x y = FailFast /\ iweights true x y = FailFast.
Proof. exact (fun N M x y => rj_math2 M x y). Qed.
Print Assumptions C54_math2.
Theorem C54_blend : forall (N : num) (a b x y : arg N), (unassigned a \/ unassigned x \/ unassigned y -> iblend_fractions true a x y = FailFast)
  /\ (unassigned a \/ unassigned b \/ unassigned x \/ unassigned y -> iblend_linear true a b x y = FailFast).
Proof. exact (fun N a b x y => rj_blend a b x y). Qed.
Print Assumptions C54_blend.
Theorem C54_iterators : forall (n w : Z) (a b : arg (iter_ordty n)) (d : arg (int_ordty w)),
  (unassigned a \/ unassigned d -> it_add true a d = FailFast /\ it_add_rev true d a = FailFast /\ it_sub true a d = FailFast)
  /\ (unassigned a \/ unassigned b -> @it_diff n w true a b = FailFast).
Proof. exact (fun n w a b d => conj (rj_iter a d) (rj_iter_diff a b)). Qed.
Print Assumptions C54_iterators.
(** In all builds, because an iterator interval has no unassigned state. *)
Theorem C54_iterator_copy : forall (n : Z) (X : ivl (iter_ordty n)), (unassigned (Iv X) -> it_copy X = FailFast) /\ (~ unassigned (Iv X) -> it_copy X = Ret X).
Proof. exact (fun n X => it_copy_spec X). Qed.
Print Assumptions C54_iterator_copy.
Theorem C54_sets : forall (E : enum_type) (s t : vset E), wf_set s -> wf_set t -> (forall v, ~ member s v) \/ (forall v, ~ member t v) ->
  set_eq true s t = FailFast /\ set_neq true s t = FailFast.
Proof. exact (fun E s t => rj_sets s t). Qed.
Print Assumptions C54_sets.
Theorem C54_set_values : forall (E : enum_type) (s t : vset E), wf_set t -> (forall v, ~ member t v) -> set_assign true s t = FailFast /\ set_value true t = FailFast.
Proof. exact (fun E s t => rj_set1 s t). Qed.
Print Assumptions C54_set_values.
Theorem C54_not : forall x : bset, wf_set x -> (forall v, ~ member x v) -> bnot true x = FailFast.
Proof. exact rj_bnot. Qed.
Print Assumptions C54_not.
Example C54_example : unassigned (Iv back_to_front) /\ unassigned (Iv (@ivl_default float64)) /\ wf_set (@set_empty bool_enum) /\ (forall v, ~ member (@set_empty bool_enum) v)
  /\ it_copy (@Ivl (iter_ordty 5) (exist _ 3%Z eq_refl) (exist _ 1%Z eq_refl)) = FailFast.
Proof.
  split; [exists back_to_front; split; reflexivity|]. split; [exists ivl_default; split; reflexivity|]. split; [apply wf_empty|]. split; [exact member_empty|]. reflexivity.
Qed.

(** ** C35: constrain on a scalar, in all builds *)
Theorem C35_scalar : forall (A : Type) (x : A) (c : bool), scalar_constrain x c = if c then Ret x else FailFast.
Proof. exact (fun A x c => scalar_constrain_spec x c). Qed.
Print Assumptions C35_scalar.
Example C35_scalar_example : scalar_constrain 7%nat false = FailFast /\ scalar_constrain 7%nat true = Ret 7%nat.
Proof. split; reflexivity. Qed.
