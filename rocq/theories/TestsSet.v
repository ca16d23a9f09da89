(** Tests, not proofs: the assertions of the project's own test programs test/test-set.cpp, test/test-sign.cpp and
    test/test-algorithm.cpp, evaluated on the model.  They check that the model computes what the project expects of the code. *)
From Coq Require Import List NArith ZArith Bool.
From Flocq Require Import Core BinarySingleNaN.
From Verif Require Import Outcome SetModel Num IntervalModel IntNum FloatNum AlgoModel ScalarModel.
Import ListNotations.

(** [CHECK(c)] for an expression that can fail; [CHECK_THROWS_AS(e, gsl::fail_fast)]; [CHECK_NOTHROW(e)]. *)
Definition check (o : outcome bool) : bool := match o with Ret b => b | _ => false end.
Definition throws_fail_fast {A} (o : outcome A) : bool := match o with FailFast => true | _ => false end.
Definition no_throw {A} (o : outcome A) : bool := match o with Ret _ => true | _ => false end.
Definition all {A} (l : list A) (f : A -> bool) : bool := forallb f l.

(** ** test-set.cpp *)
Inductive color := red | green | blue.
Definition color_eqb (a b : color) : bool := match a, b with red, red | green, green | blue, blue => true | _, _ => false end.
Definition color_enum : enum_type := {| ev := color; ev_eqb := color_eqb; ev_values := [red; green; blue] |}.
Definition bools := [false; true].
Definition bs (l : list bool) : bset := match set_of_list (E := bool_enum) l with Ret s => s | _ => set_empty end.
Definition cs (l : list color) : vset color_enum := match set_of_list (E := color_enum) l with Ret s => s | _ => set_empty end.
Definition bmatches (o : outcome bset) (t : bset) : bool := check (s <- o ;; Ret (set_matches_set s t)).

(** test-set.cpp 27-46; the function is applied to the two sets. *)
Definition collect (x y : bset) (func : bset -> bset -> outcome bset) : outcome bset :=
  fold_left (fun r cx => if bcontains x cx then
    fold_left (fun r cy => if bcontains y cy then s <- r ;; z <- func x y ;; set_assign true s z else r) bools r else r) bools (Ret set_empty).

(** test-set.cpp 53-71 *)
Example test_set_uninitialized : all bools (fun v =>
  no_throw (set_contains (E := bool_enum) set_empty v) && no_throw (set_matches (E := bool_enum) set_empty v)
  && throws_fail_fast (set_eq true set_empty (bs [v])) && throws_fail_fast (set_neq true set_empty (bs [v])) && throws_fail_fast (bnot true set_empty)) = true.
Proof. vm_compute. reflexivity. Qed.
(** test-set.cpp 72-94 *)
Example test_set_single : all bools (fun v =>
  let s := bs [v] in let n := bs [negb v] in
  check (set_contains (E := bool_enum) s v) && set_contains_set s s && negb (check (set_contains (E := bool_enum) s (negb v))) && negb (set_contains_set s n)
  && check (set_matches (E := bool_enum) s v) && set_matches_set s s && negb (check (set_matches (E := bool_enum) s (negb v))) && negb (set_matches_set s n)
  && bmatches (set_eq true s s) (bs [true]) && bmatches (set_eq true s n) (bs [false])
  && bmatches (set_neq true s s) (bs [false]) && bmatches (set_neq true s n) (bs [true])
  && bmatches (bnot true s) n && bmatches (bnot true n) s && Bool.eqb (possibly s) v && Bool.eqb (always s) v) = true.
Proof. vm_compute. reflexivity. Qed.
(** test-set.cpp 95-113 *)
Example test_set_multi : all bools (fun v =>
  let s := bs [v] in let s1 := bs [false; true] in
  set_contains_set s1 s1 && check (set_contains (E := bool_enum) s1 v) && set_contains_set s1 s && set_matches_set s1 s1
  && negb (check (set_matches (E := bool_enum) s1 v)) && negb (set_matches_set s1 s)
  && bmatches (set_eq true s1 s1) s1 && bmatches (set_eq true s1 s) s1 && bmatches (set_neq true s1 s) s1 && bmatches (bnot true s1) s1
  && possibly s1 && negb (always s1)) = true.
Proof. vm_compute. reflexivity. Qed.
(** test-set.cpp 114-137 *)
Example test_set_assignment : all bools (fun v =>
  check (s <- set_assign_value (E := bool_enum) set_empty v ;; e <- set_eq true s (bs [v]) ;; Ret (possibly e && always e && set_matches_set e (bs [true])))
  && check (s <- set_assign_value (E := bool_enum) (bs [v]) (negb v) ;; e <- set_eq true s (bs [true; false]) ;; Ret (possibly e && negb (always e)))
  && check (s <- sfree_assign_partial true (set_reset (bs [false; true])) (bs [v]) ;; m <- set_matches (E := bool_enum) s v ;;
            s' <- sfree_assign_partial true s (bs [negb v]) ;;
            m' <- set_matches (E := bool_enum) (sfree_reset s' (bs [v])) v ;; Ret (m && set_matches_set s' (bs [false; true]) && m'))) = true.
Proof. vm_compute. reflexivity. Qed.
(** test-set.cpp 138-189 *)
Definition sp1 := cs [red; green]. Definition sp2 := cs [red; blue]. Definition sp3 := cs [green; blue]. Definition s1 := cs [red; green; blue].
Example test_set_enum :
  all [set_empty; sp1; sp2; sp3; s1] (fun s => throws_fail_fast (set_value true s))
  && all [s1; sp1; sp2; sp3] (set_contains_set s1) && set_matches_set s1 s1
  && negb (set_matches_set s1 sp1) && negb (set_matches_set s1 sp2) && negb (set_matches_set s1 sp3)
  && negb (set_matches_set sp1 sp2) && negb (set_matches_set sp1 sp3) && negb (set_matches_set sp2 sp3)
  && bmatches (set_eq true sp1 (cs [blue])) (bs [false])
  && all [(s1, s1); (sp1, cs [red]); (sp1, sp2); (sp1, sp3); (sp2, sp3); (s1, sp1); (s1, sp2); (s1, sp3)]
       (fun p => bmatches (set_eq true (fst p) (snd p)) (bs [false; true]))
  && all [red; green; blue] (fun v => check (set_contains (E := color_enum) s1 v) && set_contains_set s1 (cs [v])
       && negb (check (set_matches (E := color_enum) s1 v)) && negb (set_matches_set s1 (cs [v]))
       && check (w <- set_value true (cs [v]) ;; Ret (color_eqb w v))) = true.
Proof. vm_compute. reflexivity. Qed.
(** test-set.cpp 190-197 *)
Example test_set_negation :
  bmatches (bnot true (bs [true])) (bs [false]) && bmatches (bnot true (bs [false])) (bs [true]) && bmatches (bnot true (bs [false; true])) (bs [false; true]) = true.
Proof. vm_compute. reflexivity. Qed.
(** test-set.cpp 198-350: each operator on a bool and a set, in both orders, against the same operator on two sets. *)
Definition assigned_bsets := [bs [false]; bs [true]; bs [false; true]].
Definition agrees (z : outcome bset) (x y : bset) (f : bset -> bset -> outcome bset) : bool :=
  check (a <- z ;; b <- collect x y f ;; Ret (set_matches_set a b)).
Definition pure (f : bset -> bset -> bset) (x y : bset) : outcome bset := Ret (f x y).
Example test_set_mixed_operators : all bools (fun x => all assigned_bsets (fun y =>
  let X := bs [x] in
  agrees (Ret (band_bs x y)) X y (pure band) && agrees (Ret (band_sb y x)) y X (pure band)
  && agrees (Ret (bor_bs x y)) X y (pure bor) && agrees (Ret (bor_sb y x)) y X (pure bor)
  && agrees (Ret (bxor_bs x y)) X y (pure bxor) && agrees (Ret (bxor_sb y x)) y X (pure bxor)
  && agrees (set_eq true X y) X y (set_eq true) && agrees (set_eq true y X) y X (set_eq true)
  && agrees (set_neq true X y) X y (set_neq true) && agrees (set_neq true y X) y X (set_neq true)
  && agrees (Ret (bleq_bs x y)) X y (pure bleq) && agrees (Ret (bleq_sb y x)) y X (pure bleq)
  && agrees (Ret (blt_bs x y)) X y (pure blt) && agrees (Ret (blt_sb y x)) y X (pure blt)
  && agrees (Ret (bgeq_bs x y)) X y (pure bgeq) && agrees (Ret (bgeq_sb y x)) y X (pure bgeq)
  && agrees (Ret (bgt_bs x y)) X y (pure bgt) && agrees (Ret (bgt_sb y x)) y X (pure bgt))) = true.
Proof. vm_compute. reflexivity. Qed.
(** test-set.cpp 412-452 *)
Example test_set_predicates :
  possibly_b true && negb (possibly_b false) && possibly (bs [true]) && possibly (bs [false; true]) && negb (possibly (bs [false]))
  && possibly_not_b false && negb (possibly_not_b true) && possibly_not (bs [false]) && possibly_not (bs [false; true]) && negb (possibly_not (bs [true]))
  && always_b true && negb (always_b false) && always (bs [true]) && negb (always (bs [false; true])) && negb (always (bs [false]))
  && never_b false && negb (never_b true) && never (bs [false]) && negb (never (bs [false; true])) && negb (never (bs [true]))
  && negb (contingent_b true) && negb (contingent_b false) && negb (contingent (bs [true])) && contingent (bs [false; true]) && negb (contingent (bs [false])) = true.
Proof. vm_compute. reflexivity. Qed.

(** ** test-sign.cpp.  [sgn(0u)] is not modelled: unsigned integers are not value types of intervals. *)
Definition is_sign (o : outcome sign) (s : sign) : bool := check (t <- o ;; Ret (sign_eqb t s)).
Definition is_num {N : num} (o : outcome N) (v : N) : bool := check (w <- o ;; Ret (o_eq w v)).
Example test_sign_general :
  sign_eqb (sign_neg negative_sign) positive_sign && sign_eqb (sign_neg zero_sign) zero_sign && sign_eqb (sign_neg positive_sign) negative_sign
  && sign_eqb (sign_mul negative_sign negative_sign) positive_sign && sign_eqb (sign_mul positive_sign negative_sign) negative_sign
  && sign_eqb (sign_mul negative_sign zero_sign) zero_sign && sign_eqb (sign_mul zero_sign zero_sign) zero_sign
  && sign_eqb (sign_mul positive_sign zero_sign) zero_sign = true.
Proof. vm_compute. reflexivity. Qed.
Example test_sign_double :
  let neg (v : float64) : float64 := match n_neg v with Ret w => w | _ => n_nan end in
  is_sign (ssgn true (n_zero : float64)) zero_sign && is_sign (ssgn true (neg n_zero)) zero_sign
  && all [f64 1 (-52); f64 1 (-1022); f64 1 0] (fun v => is_sign (ssgn true v) positive_sign && is_sign (ssgn true (neg v)) negative_sign)
  && is_num (sign_mul_scalar negative_sign (f64 2 0)) (f64 (-2) 0) && is_num (sign_mul_scalar zero_sign (f64 2 0)) (f64 0 0)
  && is_num (sign_mul_scalar positive_sign (f64 2 0)) (f64 2 0) && throws_fail_fast (ssgn true (n_nan : float64)) = true.
Proof. vm_compute. reflexivity. Qed.
Example test_sign_int :
  is_sign (ssgn true (i32 (-2))) negative_sign && is_sign (ssgn true (i32 0)) zero_sign && is_sign (ssgn true (i32 3)) positive_sign
  && is_num (sign_mul_scalar negative_sign (i32 2)) (i32 (-2)) && is_num (sign_mul_scalar zero_sign (i32 2)) (i32 0)
  && is_num (sign_mul_scalar positive_sign (i32 2)) (i32 2) = true.
Proof. vm_compute. reflexivity. Qed.

(** ** test-algorithm.cpp *)
Definition same {A} (eqb : A -> A -> bool) (o : option (outcome (list A))) (l : list A) : bool :=
  match o with Some (Ret m) => Nat.eqb (length l) (length m) && forallb (fun p => eqb (fst p) (snd p)) (combine l m) | _ => false end.
Definition fails {A} (o : option (outcome (list A))) : bool := match o with Some FailFast => true | _ => false end.
(** test-algorithm.cpp 56-87 *)
Example test_enumerate :
  same Bool.eqb (enumerate_scalar 9 false) [false] && same Bool.eqb (enumerate_scalar 9 true) [true] && same Z.eqb (enumerate_scalar 9 42%Z) [42%Z]
  && fails (enumerate_set (E := bool_enum) 9 set_empty) && same Bool.eqb (enumerate_set 9 (bs [false])) [false]
  && same Bool.eqb (enumerate_set 9 (bs [true])) [true] && same Bool.eqb (enumerate_set 9 (bs [false; true])) [false; true]
  && fails (enumerate_set (E := color_enum) 9 set_empty) && same color_eqb (enumerate_set 9 (cs [red])) [red]
  && same color_eqb (enumerate_set 9 (cs [blue])) [blue] && same color_eqb (enumerate_set 9 (cs [green; blue])) [green; blue]
  && fails (enumerate_interval (O := int32) 9 ivl_default)
  && same (@o_eq int32) (enumerate_interval (O := int32) 9 (ivl_of (i32 3))) [i32 3]
  && same (@o_eq int32) (enumerate_interval (O := int32) 9 (Ivl (i32 3) (i32 5))) [i32 3; i32 4; i32 5] = true.
Proof. vm_compute. reflexivity. Qed.
(** test-algorithm.cpp 89-127; the int index is converted to [gsl::index]. *)
Definition ix (z : Z) : int64 := match int_of 64 z with Ret a => a | _ => n_zero end.
Definition colors := [blue; green; red].
Definition numbers : list (arg int32) := map (fun z => Sc (i32 z)) [2; 4; 6; 8]%Z.
Definition at_colors (l u : Z) := at_sets true (map (fun c => cs [c]) colors) (Ivl (ix l) (ix u)).
Definition at_nums (l u : Z) := at_numbers (N := int32) numbers (Ivl (ix l) (ix u)).
Definition nums_match (l u a b : Z) : bool := check (X <- at_nums l u ;; Ret (matches_ivl X (Ivl (i32 a) (i32 b)))).
Example test_at :
  throws_fail_fast (at_index colors (ix (-1))) && check (c <- at_index colors (ix 0) ;; Ret (color_eqb c blue))
  && check (c <- at_index colors (ix 2) ;; Ret (color_eqb c red)) && throws_fail_fast (at_index colors (ix 3))
  && throws_fail_fast (at_colors (-1) (-1)) && throws_fail_fast (at_colors (-1) 1) && throws_fail_fast (at_colors 1 3) && throws_fail_fast (at_colors 3 3)
  && check (s <- at_colors 0 1 ;; Ret (set_matches_set s (cs [blue; green]))) && check (s <- at_colors 1 2 ;; Ret (set_matches_set s (cs [green; red])))
  && check (s <- at_colors 0 2 ;; Ret (set_matches_set s (cs [blue; green; red]))) && check (s <- at_colors 1 1 ;; Ret (set_matches_set s (cs [green])))
  && throws_fail_fast (at_nums (-1) (-1)) && throws_fail_fast (at_nums (-1) 1) && throws_fail_fast (at_nums 1 4) && throws_fail_fast (at_nums 4 4)
  && nums_match 0 1 2 4 && nums_match 1 2 4 6 && nums_match 0 2 2 6 && nums_match 1 1 4 4 = true.
Proof. vm_compute. reflexivity. Qed.
