(** Model of [intervals::set<T>], of the four-valued logic [set<bool>], and of [set<sign>].
    Sources: include/intervals/set.hpp, detail/set.hpp, logic.hpp, sign.hpp, detail/sign.hpp. *)
From Coq Require Import List NArith ZArith Bool.
From Verif Require Import Outcome.
Import ListNotations.
Open Scope N_scope.

(** A reflected value type: [makeshift::metadata::values<T, ReflectorT>()] (set.hpp 40) and [operator==] on [T]. *)
Record enum_type := {
  ev :> Type;
  ev_eqb : ev -> ev -> bool;
  ev_values : list ev
}.

(** [set<T>]: the only state is [std::bitset<num_values> state_] (set.hpp 45); bit [i] stands for [values[i]].
    The bitset is an [N]; [wf_set] in SetProofs.v states that no bit at or above [num_values] is ever set. *)
Record vset (E : enum_type) := mkset { state : N }.
Arguments mkset {E} state.
Arguments state {E} v.

Section Set_.
  Context {E : enum_type}.

  (** set.hpp 43 *)
  Definition num_values : nat := length (ev_values E).

  (** set.hpp 52-63: linear search, fail-fast if the value is not listed. *)
  Fixpoint find_value_index_from (i : nat) (l : list E) (value : E) : outcome nat :=
    match l with
    | [] => FailFast
    | v :: l' => if ev_eqb E v value then Ret i else find_value_index_from (S i) l' value
    end.
  Definition find_value_index (value : E) : outcome nat :=
    find_value_index_from 0 (ev_values E) value.

  (** [std::bitset::count()]. *)
  Definition count (s : N) : nat :=
    length (filter (fun i => N.testbit s (N.of_nat i)) (seq 0 num_values)).
  (** [std::bitset::any()]. *)
  Definition any (s : N) : bool := negb (N.eqb s 0).

  (** set.hpp 64-72: returns { anyPossibleMismatch, anyMatch }. *)
  Definition set_compare_eq (lhs rhs : vset E) : bool * bool :=
    let anyMatch := any (N.land (state lhs) (state rhs)) in
    let cl := count (state lhs) in
    let cr := count (state rhs) in
    let anyPossibleMismatch :=
      (Nat.ltb 1 cl || Nat.ltb 1 cr || (Nat.eqb cl 1 && Nat.eqb cr 1 && negb anyMatch))%bool in
    (anyPossibleMismatch, anyMatch).

  (** set.hpp 75-77 *)
  Definition set_empty : vset E := mkset 0.
  (** set.hpp 124-129 ([assign(T)]) *)
  Definition set_assign_value (s : vset E) (value : E) : outcome (vset E) :=
    i <- find_value_index value ;;
    Ret (mkset (N.setbit (state s) (N.of_nat i))).
  (** set.hpp 78-81 ([set(T)]) *)
  Definition set_of_value (value : E) : outcome (vset E) :=
    set_assign_value set_empty value.
  (** set.hpp 82-88 ([set(std::initializer_list<T>)]) *)
  Fixpoint set_assign_values (s : vset E) (l : list E) : outcome (vset E) :=
    match l with
    | [] => Ret s
    | v :: l' => s' <- set_assign_value s v ;; set_assign_values s' l'
    end.
  Definition set_of_list (l : list E) : outcome (vset E) := set_assign_values set_empty l.
  (** set.hpp 89-93: [std::bitset<num_values>(bits)] keeps the low [num_values] bits. *)
  Definition from_bits (bits : N) : vset E := mkset (N.land bits (N.ones (N.of_nat num_values))).
  (** set.hpp 131-135: [std::bitset::to_ullong] throws [std::overflow_error] if the value needs more than 64 bits. *)
  Definition to_bits (s : vset E) : outcome N :=
    if N.ltb (state s) (2 ^ 64) then Ret (state s) else Throw.
  (** set.hpp 95-100, 101-106 *)
  Definition set_reset (s : vset E) : vset E := mkset 0.
  Definition set_reset_to (s rhs : vset E) : vset E := mkset (state rhs).
  (** set.hpp 108-112 *)
  Definition set_assigned (s : vset E) : bool := any (state s).
  (** set.hpp 116-123 *)
  Definition set_assign (dbg : bool) (s rhs : vset E) : outcome (vset E) :=
    expects_debug dbg (set_assigned rhs) ;;;
    Ret (mkset (N.lor (state s) (state rhs))).
  (** set.hpp 137-143 *)
  Definition contains_index (s : vset E) (i : Z) : outcome bool :=
    expects ((0 <=? i)%Z && (i <? Z.of_nat num_values)%Z) ;;;
    Ret (N.testbit (state s) (Z.to_N i)).
  (** set.hpp 144-148 *)
  Definition set_contains (s : vset E) (value : E) : outcome bool :=
    i <- find_value_index value ;;
    Ret (N.testbit (state s) (N.of_nat i)).
  (** set.hpp 149-153 *)
  Definition set_contains_set (s t : vset E) : bool :=
    N.eqb (N.land (state s) (state t)) (state t).
  (** set.hpp 159-163 *)
  Definition set_matches_set (s t : vset E) : bool := N.eqb (state s) (state t).
  (** set.hpp 154-158 *)
  Definition set_matches (s : vset E) (value : E) : outcome bool :=
    t <- set_of_value value ;; Ret (set_matches_set s t).
  (** set.hpp 164-184: the loop over the values with [lstate] shifted right in every round. *)
  Fixpoint value_loop (lstate : N) (l : list E) : outcome E :=
    match l with
    | [] => FailFast
    | v :: l' =>
        let bit0 := N.testbit lstate 0 in
        let lstate' := N.shiftr lstate 1 in
        if bit0 then (if negb (any lstate') then Ret v else FailFast)
        else value_loop lstate' l'
    end.
  Definition set_value (dbg : bool) (s : vset E) : outcome E :=
    expects_debug dbg (set_assigned s) ;;;
    value_loop (state s) (ev_values E).

  (** Printing, set.hpp 228-251: the tokens written to the stream. [TVal v] is [stream << v]. *)
  Inductive token := TOpen | TVal (v : E) | TComma | TClose.
  Fixpoint print_loop (s : vset E) (first : bool) (i : nat) (l : list E) : list token :=
    match l with
    | [] => [TClose]
    | v :: l' =>
        if N.testbit (state s) (N.of_nat i) then
          (if first then [] else [TComma]) ++ TVal v :: print_loop s false (S i) l'
        else print_loop s first (S i) l'
    end.
  Definition set_print (s : vset E) : list token := TOpen :: print_loop s true 0 (ev_values E).
End Set_.

Arguments num_values : clear implicits.

(** [makeshift] reflection of [bool]: values { false, true }; hence bit 0 is [false] and bit 1 is [true]
    (detail/set.hpp 16-21). *)
Definition bool_enum : enum_type :=
  {| ev := bool; ev_eqb := Bool.eqb; ev_values := [false; true] |}.
Notation bset := (vset bool_enum).

(** [set<bool>::contains(b)]: [find_value_index] succeeds for both values of [bool]; SetProofs.v proves that this is
    [set_contains] (set.hpp 144-148). *)
Definition bcontains (x : bset) (b : bool) : bool := N.testbit (state x) (if b then 1 else 0).
(** [set<bool>::assign(b)] (set.hpp 124-129), likewise. *)
Definition bassign (x : bset) (b : bool) : bset := mkset (N.setbit (state x) (if b then 1 else 0)).
Definition bset_of (b : bool) : bset := bassign set_empty b.

(** set.hpp 186-202, 203-219 *)
Definition set_eq {E : enum_type} (dbg : bool) (lhs rhs : vset E) : outcome bset :=
  expects_debug dbg (set_assigned lhs && set_assigned rhs) ;;;
  let '(anyPossibleMismatch, anyMatch) := set_compare_eq lhs rhs in
  let r := set_empty in
  let r := if anyMatch then bassign r true else r in
  let r := if anyPossibleMismatch then bassign r false else r in
  Ret r.
Definition set_neq {E : enum_type} (dbg : bool) (lhs rhs : vset E) : outcome bset :=
  expects_debug dbg (set_assigned lhs && set_assigned rhs) ;;;
  let '(anyPossibleMismatch, anyMatch) := set_compare_eq lhs rhs in
  let r := set_empty in
  let r := if anyMatch then bassign r false else r in
  let r := if anyPossibleMismatch then bassign r true else r in
  Ret r.

(** Look-up tables, detail/set.hpp 49-57. [lut l] is the binary literal whose two-bit groups, most significant first,
    are [l], exactly as grouped by the digit separators in the source. *)
Definition lut (l : list N) : N := fold_left (fun a d => 4 * a + d) l 0.
Definition lut_and : N := lut [3;3;1;0; 3;2;1;0; 1;1;1;0; 0;0;0;0].
Definition lut_or  : N := lut [3;2;3;0; 2;2;2;0; 3;2;1;0; 0;0;0;0].
Definition lut_xor : N := lut [3;3;3;0; 3;1;2;0; 3;2;1;0; 0;0;0;0].
Definition lut_geq : N := lut [3;2;3;0; 2;2;1;0; 2;2;2;0; 0;0;0;0].
Definition lut_gt  : N := lut [3;3;1;0; 1;1;1;0; 3;2;1;0; 0;0;0;0].
Definition lut_not : N := lut [3;1;2;0].

(** [(table >> shift) & 0b11u], then [from_bits]. *)
Definition lut_at (table shift : N) : bset := from_bits (N.land (N.shiftr table shift) 3).
(** [1 + int(b)] *)
Definition bit_of_bool (b : bool) : N := 1 + (if b then 1 else 0).

(** set.hpp 254-260 *)
Definition bnot (dbg : bool) (x : bset) : outcome bset :=
  expects_debug dbg (set_assigned x) ;;;
  Ret (lut_at lut_not (2 * state x)).
(** set.hpp 271-285; suffixes: [_sb] set/bool, [_bs] bool/set. *)
Definition bgeq (x y : bset) : bset := lut_at lut_geq (2 * state x + 8 * state y).
Definition bgeq_sb (x : bset) (y : bool) : bset := lut_at lut_geq (2 * state x + 8 * bit_of_bool y).
Definition bgeq_bs (x : bool) (y : bset) : bset := lut_at lut_geq (2 * bit_of_bool x + 8 * state y).
(** set.hpp 286-300 *)
Definition bgt (x y : bset) : bset := lut_at lut_gt (2 * state x + 8 * state y).
Definition bgt_sb (x : bset) (y : bool) : bset := lut_at lut_gt (2 * state x + 8 * bit_of_bool y).
Definition bgt_bs (x : bool) (y : bset) : bset := lut_at lut_gt (2 * bit_of_bool x + 8 * state y).
(** set.hpp 301-315 *)
Definition bleq (x y : bset) : bset := lut_at lut_geq (2 * state y + 8 * state x).
Definition bleq_sb (x : bset) (y : bool) : bset := lut_at lut_geq (2 * bit_of_bool y + 8 * state x).
Definition bleq_bs (x : bool) (y : bset) : bset := lut_at lut_geq (2 * state y + 8 * bit_of_bool x).
(** set.hpp 316-330 *)
Definition blt (x y : bset) : bset := lut_at lut_gt (2 * state y + 8 * state x).
Definition blt_sb (x : bset) (y : bool) : bset := lut_at lut_gt (2 * bit_of_bool y + 8 * state x).
Definition blt_bs (x : bool) (y : bset) : bset := lut_at lut_gt (2 * state y + 8 * bit_of_bool x).
(** set.hpp 331-345 *)
Definition band (x y : bset) : bset := lut_at lut_and (2 * state x + 8 * state y).
Definition band_sb (x : bset) (y : bool) : bset := lut_at lut_and (2 * state x + 8 * bit_of_bool y).
Definition band_bs (x : bool) (y : bset) : bset := lut_at lut_and (2 * state y + 8 * bit_of_bool x).
(** set.hpp 346-360 *)
Definition bor (x y : bset) : bset := lut_at lut_or (2 * state x + 8 * state y).
Definition bor_sb (x : bset) (y : bool) : bset := lut_at lut_or (2 * state x + 8 * bit_of_bool y).
Definition bor_bs (x : bool) (y : bset) : bset := lut_at lut_or (2 * state y + 8 * bit_of_bool x).
(** set.hpp 361-375 *)
Definition bxor (x y : bset) : bset := lut_at lut_xor (2 * state x + 8 * state y).
Definition bxor_sb (x : bset) (y : bool) : bset := lut_at lut_xor (2 * state x + 8 * bit_of_bool y).
Definition bxor_bs (x : bool) (y : bset) : bset := lut_at lut_xor (2 * state y + 8 * bit_of_bool x).

(** set.hpp 381-410 *)
Definition possibly (x : bset) : bool := bcontains x true.
Definition possibly_not (x : bset) : bool := bcontains x false.
Definition always (x : bset) : bool := negb (bcontains x false).
Definition never (x : bset) : bool := negb (bcontains x true).
(** [set{ false, true }] *)
Definition bset_both : bset := bassign (bassign set_empty false) true.
Definition contingent (x : bset) : bool := set_matches_set x bset_both.
Definition vacuous (x : bset) : bool := negb (set_assigned x).

(** logic.hpp 16-45 (Boolean overloads) *)
Definition possibly_b (x : bool) : bool := x.
Definition possibly_not_b (x : bool) : bool := negb x.
Definition always_b (x : bool) : bool := x.
Definition never_b (x : bool) : bool := negb x.
Definition contingent_b (x : bool) : bool := false.
Definition vacuous_b (x : bool) : bool := false.
(** logic.hpp 51-56 *)
Definition if_else_b {A : Type} (cond : bool) (resultIfTrue resultIfFalse : A) : A :=
  if cond then resultIfTrue else resultIfFalse.

Section SetIfElse.
  Context {E : enum_type}.
  (** set.hpp 412-426 *)
  Definition set_if_else (dbg : bool) (cond : bset) (t f : vset E) : outcome (vset E) :=
    let r := set_empty in
    r <- (if possibly cond then set_assign dbg r t else Ret r) ;;
    r <- (if possibly_not cond then set_assign dbg r f else Ret r) ;;
    Ret r.
  (** set.hpp 427-432, 433-438 *)
  Definition set_if_else_vs (dbg : bool) (cond : bset) (t : E) (f : vset E) : outcome (vset E) :=
    t' <- set_of_value t ;; set_if_else dbg cond t' f.
  Definition set_if_else_sv (dbg : bool) (cond : bset) (t : vset E) (f : E) : outcome (vset E) :=
    f' <- set_of_value f ;; set_if_else dbg cond t f'.

  (** Free functions, set.hpp 444-461 *)
  Definition sfree_assign (lhs rhs : vset E) : vset E := set_reset_to lhs rhs.
  Definition sfree_assign_partial (dbg : bool) (lhs rhs : vset E) : outcome (vset E) := set_assign dbg lhs rhs.
  Definition sfree_reset (lhs rhs : vset E) : vset E := set_reset_to lhs rhs.
End SetIfElse.

(** [enum sign], sign.hpp 20-30; reflected in the order { negative, zero, positive }. *)
Inductive sign := negative_sign | zero_sign | positive_sign.
Definition sign_eqb (a b : sign) : bool :=
  match a, b with
  | negative_sign, negative_sign | zero_sign, zero_sign | positive_sign, positive_sign => true
  | _, _ => false
  end.
Definition sign_enum : enum_type :=
  {| ev := sign; ev_eqb := sign_eqb; ev_values := [negative_sign; zero_sign; positive_sign] |}.
Notation sset := (vset sign_enum).

(** [int(x)] for [sign x], sign.hpp 20-25; [sign(i)] for an [int] in { -1, 0, 1 }, totalised to [zero_sign] for other values
    (unreachable: products and negations of signs stay in range). *)
Definition int_of_sign (s : sign) : Z :=
  match s with negative_sign => (-1)%Z | zero_sign => 0%Z | positive_sign => 1%Z end.
Definition sign_of_int (i : Z) : sign :=
  match i with Z0 => zero_sign | Zpos _ => positive_sign | Zneg _ => negative_sign end.
(** sign.hpp 32-46 *)
Definition sign_neg (x : sign) : sign := sign_of_int (- int_of_sign x).
Definition sign_mul (x y : sign) : sign := sign_of_int (int_of_sign x * int_of_sign y).

(** [set<sign>::contains], [set<sign>::assign], totalised like [bcontains] (see SetProofs.v). *)
Definition sign_index (s : sign) : N :=
  match s with negative_sign => 0 | zero_sign => 1 | positive_sign => 2 end.
Definition scontains (x : sset) (s : sign) : bool := N.testbit (state x) (sign_index s).
Definition sassign (x : sset) (s : sign) : sset := mkset (N.setbit (state x) (sign_index s)).
Definition sset_of (s : sign) : sset := sassign set_empty s.

(** set.hpp 464-468 *)
Definition sset_plus (x : sset) : sset := x.
(** set.hpp 469-486 *)
Definition sset_neg (x : sset) : sset :=
  let r := set_empty in
  let r := if scontains x positive_sign then sassign r negative_sign else r in
  let r := if scontains x negative_sign then sassign r positive_sign else r in
  let r := if scontains x zero_sign then sassign r zero_sign else r in
  r.
(** set.hpp 487-510 *)
Definition sset_mul (lhs rhs : sset) : sset :=
  let lp := scontains lhs positive_sign in
  let lz := scontains lhs zero_sign in
  let ln := scontains lhs negative_sign in
  let rp := scontains rhs positive_sign in
  let rz := scontains rhs zero_sign in
  let rn := scontains rhs negative_sign in
  let r := set_empty in
  let r := if (lp && rn) || (ln && rp) then sassign r negative_sign else r in
  let r := if (lp && rp) || (ln && rn) then sassign r positive_sign else r in
  let r := if lz || rz then sassign r zero_sign else r in
  r.
(** set.hpp 511-520 *)
Definition sset_mul_sv (lhs : sset) (rhs : sign) : sset := sset_mul lhs (sset_of rhs).
Definition sset_mul_vs (lhs : sign) (rhs : sset) : sset := sset_mul rhs (sset_of lhs).

(** A client's use of a mutable [set<T>] object: the mutating members [assign(T)], [assign(set)], [reset()], [reset(set)]
    (set.hpp 95-106, 116-129) and the free functions built on them (set.hpp 444-461). *)
Inductive set_op (E : enum_type) :=
| SAssignValue (v : E)
| SAssignSet (t : vset E)
| SReset
| SResetTo (t : vset E).
Arguments SAssignValue {E} v.
Arguments SAssignSet {E} t.
Arguments SReset {E}.
Arguments SResetTo {E} t.

Definition set_step {E : enum_type} (dbg : bool) (s : vset E) (o : set_op E) : outcome (vset E) :=
  match o with
  | SAssignValue v => set_assign_value s v
  | SAssignSet t => set_assign dbg s t
  | SReset => Ret (set_reset s)
  | SResetTo t => Ret (set_reset_to s t)
  end.
Fixpoint set_run {E : enum_type} (dbg : bool) (s : vset E) (ops : list (set_op E)) : outcome (vset E) :=
  match ops with
  | [] => Ret s
  | o :: ops' => s' <- set_step dbg s o ;; set_run dbg s' ops'
  end.
