(** Properties of whole programs (C45, C47, C50). *)
From Coq Require Import Reals Bool List Arith ZArith.
From Verif Require Import Outcome SetModel Spec SetProofs Num NumLaws IntervalModel IvlSpec IvlProofs IntNum IntProofs FloatNum FloatProofs ValueTypes IvlWrap Refute
  ConstrainModel CondSpec MathModel MathSpec FloatMathProofs MathWrap LangModel LangSpec LangProofs LangProofs2 ExampleModel ExampleProofs XReal RealNum TrigProofs ExampleProofs2.
Import ListNotations.
Open Scope nat_scope.

(** ** C47 *)
Theorem C47_expression : forall N M, prog_type N M -> forall dbg Xs xs (e : expr N) a, Forall2 el Xs xs ->
  eclean M dbg (map Iv Xs) e -> efuns (monotone M) e -> ieval M dbg (map Iv Xs) e = Ret a ->
  exists v, seval M dbg xs e = Ret v /\ match a with Sc c => v = c | Iv Z => el Z v end.
Proof. exact (fun N M H dbg Xs xs e a => expression_included H dbg Xs xs e a). Qed.
Print Assumptions C47_expression.
Theorem C47_test : forall N M, prog_type N M -> forall dbg Xs xs (t : test N) c, Forall2 el Xs xs ->
  tclean M dbg (map Iv Xs) t -> tfuns (monotone M) t -> itest M dbg (map Iv Xs) t = Ret c ->
  exists b, stest M dbg xs t = Ret b /\ member (cset c) b.
Proof. exact (fun N M H dbg Xs xs t c => test_included H dbg Xs xs t c). Qed.
Print Assumptions C47_test.
(** [f1([0,1]) = [-2,1]] and [f2([0,1]) = [-1,0]] (examples/simple1.cpp 36-41), and [f2([0,1]) > 0] is false. *)
Definition X01 : ivl (float_num 53 1024 prec_gt_0_53 prec_lt_emax_64) := Ivl (f64 0 0) (f64 1 0).
Example C47_example : Forall2 el [X01] [f64 1 (-1)]
  /\ eclean None true (map Iv [X01]) (f1 (f64 2 0)) /\ efuns (N := float_num 53 1024 prec_gt_0_53 prec_lt_emax_64) (monotone (N := float_num 53 1024 prec_gt_0_53 prec_lt_emax_64) None) (f1 (f64 2 0)) /\ eclean None true (map Iv [X01]) f2
  /\ (exists a, ieval None true (map Iv [X01]) (f1 (f64 2 0)) = Ret a /\ o_eq (alower a) (f64 (-2) 0) && o_eq (aupper a) (f64 1 0) = true)
  /\ (exists a, ieval None true (map Iv [X01]) f2 = Ret a /\ o_eq (alower a) (f64 (-1) 0) && o_eq (aupper a) (f64 0 0) = true)
  /\ (exists c, itest None true (map Iv [X01]) (QRel RGt f2 (ELit n_zero)) = Ret c /\ negb (possibly (cset c)) = true).
Proof.
  split; [repeat constructor|]. split; [apply (clean_ok (float_laws 53 1024 prec_gt_0_53 prec_lt_emax_64)); vm_compute; reflexivity|]. split; [cbn; unfold monotone; intuition discriminate|].
  split; [apply (clean_ok (float_laws 53 1024 prec_gt_0_53 prec_lt_emax_64)); vm_compute; reflexivity|]. split; [apply ret_witness; vm_compute; reflexivity|].
  split; apply ret_witness; vm_compute; reflexivity.
Qed.

(** examples/simple1.cpp in exact arithmetic: both functions are [x^2 - 2x]; of an interval, [f2] is exactly the range, and [f1] is the
    range with the two occurrences of [x] varied separately. *)
Theorem C47_simple1_scalar : forall dbg (r : R), seval None dbg [RF r] (f1 (RF 2)) = Ret (RF (r * r - 2 * r))
  /\ seval None dbg [RF r] f2 = Ret (RF (r * r - 2 * r)).
Proof. exact simple1_scalar. Qed.
Print Assumptions C47_simple1_scalar.
Theorem C47_simple1 : forall dbg (a b : R), (a <= b)%R -> exists l1 u1 l2 u2,
  ieval None dbg [Iv (RI a b)] (f1 (RF 2)) = Ret (Iv (RI l1 u1)) /\ ieval None dbg [Iv (RI a b)] f2 = Ret (Iv (RI l2 u2))
  /\ ((forall x, a <= x <= b -> l2 <= x * x - 2 * x <= u2)
      /\ (exists x, a <= x <= b /\ x * x - 2 * x = l2) /\ (exists x, a <= x <= b /\ x * x - 2 * x = u2))%R
  /\ (forall x y, a <= x <= b -> a <= y <= b -> l1 <= x * x - 2 * y <= u1)%R
  /\ (exists x y, a <= x <= b /\ a <= y <= b /\ x * x - 2 * y = l1)%R /\ (exists x y, a <= x <= b /\ a <= y <= b /\ x * x - 2 * y = u1)%R.
Proof. exact simple1_ranges. Qed.
Print Assumptions C47_simple1.
Example C47_simple1_example : (0 <= 1)%R. Proof. exact Rle_0_1. Qed.

(** ** C50 *)
Theorem C50_program : forall N M, prog_type N M -> forall dbg Xs xs (p : prog N) R, Forall2 el Xs xs ->
  well_formed (repeat true (length Xs)) [] p = true -> pclean M dbg (map Iv Xs) [] p -> pfuns (monotone M) p ->
  LangModel.irun M dbg (map Iv Xs) [] p ivl_default = Ret R ->
  exists o, srun M dbg xs [] p None = Ret o /\ (forall v, o = Some v -> el R v) /\ (complete p = true -> o <> None).
Proof. exact (fun N M H dbg Xs xs p R => program_included H dbg Xs xs p R). Qed.
Print Assumptions C50_program.
(** [s([-1,2]) = [0, 1.41421]] (examples/simple3.cpp 43-47). *)
Definition Xm12 : ivl (float_num 53 1024 prec_gt_0_53 prec_lt_emax_64) := Ivl (f64 (-1) 0) (f64 2 0).
Example C50_example : forall L, Forall2 el [Xm12] [f64 1 0] /\ well_formed (repeat true 1) [] (@simple3_s (float_num 53 1024 prec_gt_0_53 prec_lt_emax_64)) = true
  /\ complete (@simple3_s (float_num 53 1024 prec_gt_0_53 prec_lt_emax_64)) = true
  /\ pclean (N := float_num 53 1024 prec_gt_0_53 prec_lt_emax_64) (Some (FM64 L)) true (map Iv [Xm12]) [] simple3_s /\ pfuns (N := float_num 53 1024 prec_gt_0_53 prec_lt_emax_64) (monotone (N := float_num 53 1024 prec_gt_0_53 prec_lt_emax_64) (Some (FM64 L))) simple3_s
  /\ (exists R, LangModel.irun (Some (FM64 L)) true (map Iv [Xm12]) [] simple3_s ivl_default = Ret R
       /\ o_eq (lo R) (f64 0 0) && o_lt (f64 45 (-5)) (hi R) && o_lt (hi R) (f64 46 (-5)) = true).
Proof.
  intros L. split; [repeat constructor|]. split; [reflexivity|]. split; [reflexivity|].
  split; [apply (pclean_ok (float_laws 53 1024 prec_gt_0_53 prec_lt_emax_64)); vm_compute; reflexivity|]. split; [cbn; unfold monotone; tauto|].
  apply ret_witness; vm_compute; reflexivity.
Qed.

(** examples/simple3.cpp: the square root is only taken of numbers that are not negative, and the result is exactly the range. *)
Theorem C50_simple3 : forall N M, fp_math N M -> forall dbg (X : ivl N), proper X ->
  exists Z, LangModel.irun (Some M) dbg [Iv X] [] simple3_s ivl_default = Ret Z
    /\ is_hull (fun v => exists x, el X x /\ srun (Some M) dbg [x] [] simple3_s None = Ret (Some v)) Z.
Proof. exact (fun N M H dbg X => simple3_hull H (fp_laws N M H) dbg X). Qed.
Print Assumptions C50_simple3.
Theorem C50_simple3_scalar : forall N M, fp_math N M -> forall dbg (x : N), ~ nan x ->
  exists v, srun (Some M) dbg [x] [] simple3_s None = Ret (Some v)
    /\ (o_le n_zero x = true -> v = m_sqrt M x) /\ (o_lt x n_zero = true -> v = n_zero).
Proof. exact (fun N M H dbg x => simple3_value (fp_laws N M H) dbg x). Qed.
Print Assumptions C50_simple3_scalar.
Example C50_simple3_example : proper Xm12 /\ ~ nan (f64 (-1) 0). Proof. split; [reflexivity|]. now vm_compute. Qed.

(** ** C45 *)
Theorem C45_scalar : forall N, value_type N -> forall M dbg (a b : N) p, ~ nan a -> ~ nan b -> In p [max2; max3; imax0; imax_example] ->
  exists v, srun M dbg [a; b] [] p None = Ret (Some v) /\ (v = a \/ v = b) /\ o_le a v = true /\ o_le b v = true.
Proof. exact (fun N H M dbg a b p => examples_scalar (value_type_laws N H) M dbg a b p). Qed.
Print Assumptions C45_scalar.
Theorem C45_max_hull : forall N, value_type N -> forall M dbg (A B : ivl N) p, proper A -> proper B -> In p [max3; imax_example] ->
  exists Z, LangModel.irun M dbg [Iv A; Iv B] [] p ivl_default = Ret Z
    /\ is_hull (fun v => exists a b, el A a /\ el B b /\ srun M dbg [a; b] [] p None = Ret (Some v)) Z.
Proof. exact (fun N H M dbg A B p => exact_examples (value_type_laws N H) M dbg A B p). Qed.
Print Assumptions C45_max_hull.
Theorem C45_max_wide : forall N, value_type N -> forall M dbg (A B : ivl N) p, proper A -> proper B -> In p [max2; imax0] ->
  exists Z, LangModel.irun M dbg [Iv A; Iv B] [] p ivl_default = Ret Z
    /\ (forall v, (exists a b, el A a /\ el B b /\ srun M dbg [a; b] [] p None = Ret (Some v)) -> el Z v)
    /\ is_hull (fun v => (el B v /\ exists a b, el A a /\ el B b /\ o_lt a b = true) \/ (el A v /\ exists a b, el A a /\ el B b /\ o_le b a = true)) Z.
Proof. exact (fun N H M dbg A B p => wide_examples (value_type_laws N H) M dbg A B p). Qed.
Print Assumptions C45_max_wide.
Theorem C45_max_list : forall N, value_type N -> forall M dbg (X : ivl N) Xs p, Forall proper (X :: Xs) -> In p [max3; imax_example] ->
  exists Z, fold_max (fun A B => LangModel.irun M dbg [Iv A; Iv B] [] p ivl_default) X Xs = Ret Z
    /\ is_hull (fun v => exists xs, Forall2 el (X :: Xs) xs /\ Forall (fun x => o_le x v = true) xs /\ Exists (fun x => o_le v x = true) xs) Z.
Proof. exact (fun N H M dbg X Xs p => fold_examples (value_type_laws N H) M dbg X Xs p). Qed.
Print Assumptions C45_max_list.
(** README.md 73-77, 456-467 and examples/simple2.cpp 56-58. *)
Definition J (a b : Z) : ivl int32 := Ivl (i32 a) (i32 b).
Example C45_example : proper (J 2 4) /\ proper (J 3 6) /\ el (J 2 4) (i32 4) /\ el (J 3 6) (i32 3)
  /\ (exists Z, LangModel.irun None true [Iv (J 0 3); Iv (J 1 2)] [] max3 ivl_default = Ret Z /\ o_eq (lo Z) (i32 1) && o_eq (hi Z) (i32 3) = true)
  /\ (exists Z, LangModel.irun None true [Iv (J 0 4); Iv (J 1 2)] [] imax_example ivl_default = Ret Z /\ o_eq (lo Z) (i32 1) && o_eq (hi Z) (i32 4) = true)
  /\ (exists Z, LangModel.irun None true [Iv (J 0 4); Iv (J 1 2)] [] imax0 ivl_default = Ret Z /\ o_eq (lo Z) (i32 0) && o_eq (hi Z) (i32 4) = true)
  /\ (exists Z, LangModel.irun None true [Iv (J 2 4); Iv (J 3 6)] [] max2 ivl_default = Ret Z /\ o_eq (lo Z) (i32 2) && o_eq (hi Z) (i32 6) = true)
  /\ (exists Z, fold_max (fun A B => LangModel.irun None true [Iv A; Iv B] [] max3 ivl_default) (J 2 4) [J 3 6; J 4 5] = Ret Z /\ o_eq (lo Z) (i32 4) && o_eq (hi Z) (i32 6) = true).
Proof. split; [reflexivity|]. split; [reflexivity|]. split; [split; reflexivity|]. split; [split; reflexivity|]. repeat (split; [apply ret_witness; vm_compute; reflexivity|]). apply ret_witness; vm_compute; reflexivity. Qed.
(** The first version of README.md (390-404), with plain assignment, is not an enclosure, as README.md 420-428 says. *)
Theorem C45_plain_assignment_refuted : exists (A B : ivl int32) Z a b v, proper A /\ proper B /\ readme_max true A B = Ret Z
  /\ el A a /\ el B b /\ srun None true [a; b] [] max2 None = Ret (Some v) /\ ~ el Z v.
Proof. exact readme_max_wrong. Qed.
Print Assumptions C45_plain_assignment_refuted.
