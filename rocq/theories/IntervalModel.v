(** Model of intervals: construction, queries, relational operators, arithmetic, min/max/square/cube/abs/sgn,
    assignment, if_else, merge, intersect, stream output (include/intervals/interval.hpp, detail/interval.hpp).

    Simplifications common to the whole file:
    - operands of mixed value types are modelled after the conversion to the common value type has taken place
      (C++ converts each end point implicitly); mixed-type [constrain] is modelled in MixedModel.v, and
      mixed-type operators and conversions, where each operand is converted at each use, in MixedArithModel.v;
    - [noexcept], references and forwarding are dropped; an object that is mutated is passed and returned. *)
From Coq Require Import Bool List.
From Verif Require Import Outcome SetModel Num.
Import ListNotations.

(** [interval_base<T>]: data members [lower_], [upper_] (interval.hpp 534-535). *)
Record ivl (T : Type) := Ivl { lo : T; hi : T }.
Arguments Ivl {T} lo hi.
Arguments lo {T} i.
Arguments hi {T} i.

(** An operand that is an interval or a scalar ([interval_arg], concepts.hpp); the [if constexpr (interval_value<X>)]
    branches of the source become matches. *)
Inductive arg (T : Type) := Sc (x : T) | Iv (X : ivl T).
Arguments Sc {T} x.
Arguments Iv {T} X.

Section Order.
  Context {O : ordty} (dbg : bool).
  Implicit Types (X Y : ivl O) (v : O).

  (** [interval(T)] (interval.hpp 731, 801, 866). *)
  Definition ivl_of v : ivl O := Ivl v v.
  (** [interval(T, T)] with [gsl_Expects(!(_lower > _upper))] (interval.hpp 735-739, 805-809, 870-874). *)
  Definition mk (l u : O) : outcome (ivl O) := expects (negb (o_lt u l)) ;;; Ret (Ivl l u).
  (** [from_unordered_bounds] (interval.hpp 559-563). *)
  Definition from_unordered_bounds (b1 b2 : O) : outcome (ivl O) := mk (omin b1 b2) (omax b1 b2).
  (** [assigned] (interval.hpp 565-569). *)
  Definition assigned X : bool := negb (o_lt (hi X) (lo X)).
  (** [lower()], [upper()] with debug check (interval.hpp 585-598); also [get<0>], [get<1>] (1426-1433). *)
  Definition lower X : outcome O := expects_debug dbg (assigned X) ;;; Ret (lo X).
  Definition upper X : outcome O := expects_debug dbg (assigned X) ;;; Ret (hi X).
  (** [value] (interval.hpp 599-607). *)
  Definition value X : outcome O := if o_eq (lo X) (hi X) then Ret (lo X) else FailFast.
  (** [overlaps_with] (interval.hpp 609-613). *)
  Definition overlaps_with X Y : bool := assigned X && o_le (lo X) (hi Y) && o_le (lo Y) (hi X).
  (** [contains(T)], [contains(interval)] (interval.hpp 614-623). *)
  Definition contains X v : bool := o_le (lo X) v && o_le v (hi X).
  Definition contains_ivl X Y : bool := assigned X && o_le (lo X) (lo Y) && o_le (hi Y) (hi X).
  (** [encloses(T)], [encloses(interval)] (interval.hpp 624-633). *)
  Definition encloses X v : bool := o_lt (lo X) v && o_lt v (hi X).
  Definition encloses_ivl X Y : bool := o_lt (lo X) (lo Y) && o_lt (hi Y) (hi X).
  (** [matches(T)], [matches(interval)] (interval.hpp 634-643). *)
  Definition matches X v : bool := o_eq (lo X) v && o_eq (hi X) v.
  Definition matches_ivl X Y : bool := o_eq (lo X) (lo Y) && o_eq (hi X) (hi Y).

  (** [_reset], [_assign] (interval.hpp 543-554). *)
  Definition assign_bounds X (l u : O) : ivl O := Ivl (omin (lo X) l) (omax (hi X) u).
  (** Members [reset(T)], [reset(interval)], [assign(T)], [assign(interval)] (interval.hpp 756-781, 826-851, 888-913). *)
  Definition ireset_value X v : ivl O := Ivl v v.
  Definition ireset X Y : ivl O := Ivl (lo Y) (hi Y).
  Definition iassign_value X v : ivl O := assign_bounds X v v.
  Definition iassign X Y : outcome (ivl O) := expects (assigned Y) ;;; Ret (assign_bounds X (lo Y) (hi Y)).

  (** [detail::lower], [detail::upper], [detail::contains], [detail::assigned] on operands (detail/interval.hpp 147-208). *)
  Definition alower (a : arg O) : O := match a with Sc x => x | Iv X => lo X end.
  Definition aupper (a : arg O) : O := match a with Sc x => x | Iv X => hi X end.
  Definition aassigned (a : arg O) : bool := match a with Sc _ => true | Iv X => assigned X end.
  Definition acontains (a : arg O) (v : O) : bool := match a with Sc x => o_eq x v | Iv X => contains X v end.

  (** [compare_eq], [compare_neq], [compare_lt], [compare_leq] (interval.hpp 47-106). *)
  Definition compare_eq (l r : arg O) : bset :=
    let result := set_empty in
    let result := if o_le (alower l) (aupper r) && o_le (alower r) (aupper l) then bassign result true else result in
    if negb (o_eq (alower l) (aupper r)) || negb (o_eq (aupper l) (alower r)) then bassign result false else result.
  Definition compare_neq (l r : arg O) : bset :=
    let result := set_empty in
    let result := if o_le (alower l) (aupper r) && o_le (alower r) (aupper l) then bassign result false else result in
    if negb (o_eq (alower l) (aupper r)) || negb (o_eq (aupper l) (alower r)) then bassign result true else result.
  Definition compare_lt (l r : arg O) : bset :=
    let result := set_empty in
    let result := if o_lt (alower l) (aupper r) then bassign result true else result in
    if o_le (alower r) (aupper l) then bassign result false else result.
  Definition compare_leq (l r : arg O) : bset :=
    let result := set_empty in
    let result := if o_le (alower l) (aupper r) then bassign result true else result in
    if o_lt (alower r) (aupper l) then bassign result false else result.
  (** Truth values of the relational operators (interval.hpp 109-186); the constraint objects they also build are in
      ConstrainModel.v. *)
  Definition rel_pre (l r : arg O) : outcome unit := expects_debug dbg (aassigned l && aassigned r).
  Definition rel_eq (l r : arg O) : outcome bset := rel_pre l r ;;; Ret (compare_eq l r).
  Definition rel_neq (l r : arg O) : outcome bset := rel_pre l r ;;; Ret (compare_neq l r).
  Definition rel_lt (l r : arg O) : outcome bset := rel_pre l r ;;; Ret (compare_lt l r).
  Definition rel_leq (l r : arg O) : outcome bset := rel_pre l r ;;; Ret (compare_leq l r).
  Definition rel_gt (l r : arg O) : outcome bset := rel_pre l r ;;; Ret (compare_lt r l).
  Definition rel_geq (l r : arg O) : outcome bset := rel_pre l r ;;; Ret (compare_leq r l).

  (** [infimum], [supremum] (interval.hpp 920-935; scalars: math.hpp 39-50). *)
  Definition infimum (x : arg O) : outcome O := expects_debug dbg (aassigned x) ;;; Ret (alower x).
  Definition supremum (x : arg O) : outcome O := expects_debug dbg (aassigned x) ;;; Ret (aupper x).
  (** [min], [max] on intervals (interval.hpp 937-954). *)
  Definition imin (l r : arg O) : outcome (ivl O) :=
    expects_debug dbg (aassigned l && aassigned r) ;;;
    mk (omin (alower l) (alower r)) (omin (aupper l) (aupper r)).
  Definition imax (l r : arg O) : outcome (ivl O) :=
    expects_debug dbg (aassigned l && aassigned r) ;;;
    mk (omax (alower l) (alower r)) (omax (aupper l) (aupper r)).

  (** Free functions [assign], [assign_partial], [reset] (interval.hpp 1463-1481). *)
  Definition free_assign X Y : outcome (ivl O) := expects (negb (assigned X)) ;;; Ret (ireset X Y).
  Definition free_assign_partial X Y : outcome (ivl O) := iassign X Y.
  Definition free_reset X Y : ivl O := ireset X Y.

  (** [merge] of arguments of one type (interval.hpp 1553-1560); the first argument is copied without a check. *)
  Fixpoint merge_from X (l : list (ivl O)) : outcome (ivl O) :=
    match l with
    | [] => Ret X
    | Y :: l' => X' <- iassign X Y ;; merge_from X' l'
    end.
  Definition merge X (l : list (ivl O)) : outcome (ivl O) := merge_from X l.
  (** [detail::narrow_interval] (detail/interval.hpp 679-687) and [intersect] (interval.hpp 1561-1568). *)
  Definition narrow_interval X Y : outcome (ivl O) :=
    Z <- from_unordered_bounds (omax (lo X) (lo Y)) (omin (hi X) (hi Y)) ;; Ret (ireset X Z).
  Fixpoint intersect_from X (l : list (ivl O)) : outcome (ivl O) :=
    match l with
    | [] => Ret X
    | Y :: l' => X' <- narrow_interval X Y ;; intersect_from X' l'
    end.
  Definition intersect X (l : list (ivl O)) : outcome (ivl O) := intersect_from X l.

  (** [operator <<] (interval.hpp 646-661): the sequence of items written. *)
  Inductive itoken := TNum (x : O) | TLBracket | TCommaSpace | TRBracket.
  Definition iprint X : outcome (list itoken) :=
    expects_debug dbg (assigned X) ;;;
    Ret (if o_eq (lo X) (hi X) then [TNum (lo X)] else [TLBracket; TNum (lo X); TCommaSpace; TNum (hi X); TRBracket]).
End Order.

Section Arith.
  Context {N : num} (dbg : bool).
  Implicit Types (X Y : ivl N) (x y : arg N).

  (** [interval()] (interval.hpp 727-730, 797-800), [reset()] (750-755, 820-825). *)
  Definition ivl_default : ivl N := Ivl n_top n_bot.
  Definition ireset_default X : ivl N := ivl_default.
  (** Converting copy constructor [interval(interval_base<U> const&)] for U = T (interval.hpp 740-748, 810-818). *)
  Definition ivl_copy X : ivl N := if assigned X then Ivl (lo X) (hi X) else ivl_default.
  (** [nan_interval], [inf_interval] (detail/interval.hpp 292-316), floating-point case. *)
  Definition nan_interval : outcome (ivl N) := mk n_nan n_nan.
  Definition inf_interval : outcome (ivl N) := mk n_bot n_top.

  (** unary [+], [-] (interval.hpp 188-203). *)
  Definition iplus X : outcome (ivl N) := expects_debug dbg (assigned X) ;;; Ret X.
  Definition ineg X : outcome (ivl N) :=
    expects_debug dbg (assigned X) ;;;
    l <- n_neg (hi X) ;; u <- n_neg (lo X) ;; mk l u.

  (** binary [+], [-] (interval.hpp 205-238). *)
  Definition iadd x y : outcome (ivl N) :=
    expects_debug dbg (aassigned x && aassigned y) ;;;
    if n_float N && ((is_ninf (alower x) && is_pinf (aupper y)) || (is_ninf (alower y) && is_pinf (aupper x)))
    then nan_interval
    else l <- n_add (alower x) (alower y) ;; u <- n_add (aupper x) (aupper y) ;; mk l u.
  Definition isub x y : outcome (ivl N) :=
    expects_debug dbg (aassigned x && aassigned y) ;;;
    if n_float N && ((is_ninf (alower x) && is_ninf (alower y)) || (is_pinf (aupper y) && is_pinf (aupper x)))
    then nan_interval
    else l <- n_sub (alower x) (aupper y) ;; u <- n_sub (aupper x) (alower y) ;; mk l u.

  Definition hull2 (v1 v2 : N) : outcome (ivl N) := mk (omin v1 v2) (omax v1 v2).
  Definition hull4 (v1 v2 v3 v4 : N) : outcome (ivl N) :=
    mk (omin (omin v1 v2) (omin v3 v4)) (omax (omax v1 v2) (omax v3 v4)).

  (** [*] (interval.hpp 239-275); [hull2]/[hull4] abbreviate the returned [min]/[max] expressions of lines 259, 265, 273. *)
  Definition imul x y : outcome (ivl N) :=
    expects_debug dbg (aassigned x && aassigned y) ;;;
    if n_float N && (((is_ninf (alower x) || is_pinf (aupper x)) && acontains y n_zero)
                     || (acontains x n_zero && (is_ninf (alower y) || is_pinf (aupper y))))
    then nan_interval
    else match x, y with
         | Sc a, _ => v1 <- n_mul a (alower y) ;; v2 <- n_mul a (aupper y) ;; hull2 v1 v2
         | Iv X, Sc b => v1 <- n_mul (lo X) b ;; v2 <- n_mul (hi X) b ;; hull2 v1 v2
         | Iv X, Iv Y =>
             v1 <- n_mul (lo X) (lo Y) ;; v2 <- n_mul (lo X) (hi Y) ;;
             v3 <- n_mul (hi X) (lo Y) ;; v4 <- n_mul (hi X) (hi Y) ;; hull4 v1 v2 v3 v4
         end.

  (** [sign*interval], [interval*sign] (interval.hpp 277-288): multiplication by [int(x)]. *)
  Definition sign_value (s : sign) : N :=
    match s with negative_sign => n_mone | zero_sign => n_zero | positive_sign => n_one end.
  Definition sign_mul_ivl (s : sign) X : outcome (ivl N) := imul (Sc (sign_value s)) (Iv X).
  Definition ivl_mul_sign X (s : sign) : outcome (ivl N) := imul (Iv X) (Sc (sign_value s)).
  (** [set<sign>*interval], [interval*set<sign>] (interval.hpp 289-313). *)
  Definition signs_mul_ivl (s : sset) (Y : ivl N) : outcome (ivl N) :=
    r <- (if scontains s positive_sign then iassign ivl_default Y else Ret ivl_default) ;;
    r <- (if scontains s negative_sign then nY <- ineg Y ;; iassign r nY else Ret r) ;;
    Ret (if scontains s zero_sign then iassign_value r n_zero else r).
  Definition ivl_mul_signs X (s : sset) : outcome (ivl N) := signs_mul_ivl s X.
  (** [T*set<sign>], [set<sign>*T] (interval.hpp 1436-1460). *)
  Definition scalar_mul_signs (v : N) (s : sset) : outcome (ivl N) :=
    let r := if scontains s positive_sign then iassign_value ivl_default v else ivl_default in
    let r := if scontains s zero_sign then iassign_value r n_zero else r in
    if scontains s negative_sign then nv <- n_neg v ;; Ret (iassign_value r nv) else Ret r.
  Definition signs_mul_scalar (s : sset) (v : N) : outcome (ivl N) := scalar_mul_signs v s.

  (** [/] (interval.hpp 315-414).  [x == 0], [x != 0] on a scalar are machine comparisons. *)
  Definition idiv x y : outcome (ivl N) :=
    expects_debug dbg (aassigned x && aassigned y) ;;;
    match x, y with
    | Sc a, _ =>
        if n_float N then
          if (is_ninf a || is_pinf a) && (is_ninf (alower y) || is_pinf (aupper y)) then nan_interval
          else if o_eq a n_zero && o_le (alower y) n_zero && o_le n_zero (aupper y) then nan_interval
          else if negb (o_eq a n_zero) && o_lt (alower y) n_zero && o_lt n_zero (aupper y) then inf_interval
          else v1 <- n_div a (alower y) ;; v2 <- n_div a (aupper y) ;; hull2 v1 v2
        else
          if o_le (alower y) n_zero && o_le n_zero (aupper y) then Trap
          else v1 <- n_div a (alower y) ;; v2 <- n_div a (aupper y) ;; hull2 v1 v2
    | Iv X, Sc b =>
        if n_float N && ((is_ninf (lo X) || is_pinf (hi X)) && (is_ninf b || is_pinf b)) then nan_interval
        else if n_float N && (o_le (lo X) n_zero && o_le n_zero (hi X) && o_eq b n_zero) then nan_interval
        else v1 <- n_div (lo X) b ;; v2 <- n_div (hi X) b ;; hull2 v1 v2
    | Iv X, Iv Y =>
        if n_float N then
          if (is_ninf (lo X) || is_pinf (hi X)) && (is_ninf (lo Y) || is_pinf (hi Y)) then nan_interval
          else if o_le (lo X) n_zero && o_le n_zero (hi X) && o_le (lo Y) n_zero && o_le n_zero (hi Y) then nan_interval
          else if (o_lt n_zero (lo X) || o_lt (hi X) n_zero) && o_lt (lo Y) n_zero && o_lt n_zero (hi Y) then inf_interval
          else v1 <- n_div (lo X) (lo Y) ;; v2 <- n_div (lo X) (hi Y) ;;
               v3 <- n_div (hi X) (lo Y) ;; v4 <- n_div (hi X) (hi Y) ;; hull4 v1 v2 v3 v4
        else
          if o_le (lo Y) n_zero && o_le n_zero (hi Y) then Trap
          else v1 <- n_div (lo X) (lo Y) ;; v2 <- n_div (lo X) (hi Y) ;;
               v3 <- n_div (hi X) (lo Y) ;; v4 <- n_div (hi X) (hi Y) ;; hull4 v1 v2 v3 v4
    end.

  (** Scalar [square], [cube], [abs] (math.hpp 65-82). *)
  Definition nsquare (a : N) : outcome N := n_mul a a.
  Definition ncube (a : N) : outcome N := s <- n_mul a a ;; n_mul s a.
  Definition nabs (a : N) : outcome N := n_abs a.

  (** [square] (interval.hpp 956-970). *)
  Definition isquare X : outcome (ivl N) :=
    expects_debug dbg (assigned X) ;;;
    l <- (if o_le (lo X) n_zero && o_le n_zero (hi X) then Ret n_zero
          else a <- n_mul (lo X) (lo X) ;; b <- n_mul (hi X) (hi X) ;; Ret (omin a b)) ;;
    a <- n_mul (lo X) (lo X) ;; b <- n_mul (hi X) (hi X) ;;
    mk l (omax a b).
  (** [cube] (interval.hpp 971-980). *)
  Definition icube X : outcome (ivl N) :=
    expects_debug dbg (assigned X) ;;;
    l <- ncube (lo X) ;; u <- ncube (hi X) ;; mk l u.
  (** [abs] (interval.hpp 982-995). *)
  Definition iabs X : outcome (ivl N) :=
    expects_debug dbg (assigned X) ;;;
    if o_le (lo X) n_zero && o_le n_zero (hi X) then nl <- n_neg (lo X) ;; mk n_zero (omax nl (hi X))
    else if o_lt (lo X) n_zero then l <- n_neg (hi X) ;; u <- n_neg (lo X) ;; mk l u
    else Ret X.
  (** [sgn] (interval.hpp 997-1019). *)
  Definition isgn X : outcome sset :=
    expects_debug dbg (assigned X) ;;;
    let r := set_empty in
    let r := if o_lt n_zero (hi X) then sassign r positive_sign else r in
    let r := if o_lt (lo X) n_zero then sassign r negative_sign else r in
    Ret (if o_le (lo X) n_zero && o_le n_zero (hi X) then sassign r zero_sign else r).

  (** [if_else] on intervals and scalars (interval.hpp 1517-1550). *)
  Definition iif_else (c : bset) (t f : ivl N) : outcome (ivl N) :=
    r <- (if possibly c then iassign ivl_default t else Ret ivl_default) ;;
    if possibly_not c then iassign r f else Ret r.
  Definition iif_else_vs (c : bset) (t : N) (f : ivl N) : outcome (ivl N) := iif_else c (ivl_of t) f.
  Definition iif_else_sv (c : bset) (t : ivl N) (f : N) : outcome (ivl N) := iif_else c t (ivl_of f).
  Definition iif_else_vv (c : bset) (t f : N) : outcome (ivl N) := iif_else c (ivl_of t) (ivl_of f).

  (** The members that mutate an interval, as operations of a client program (interval.hpp 750-781, 820-851). *)
  Inductive iop := OReset | OResetValue (v : N) | OResetIvl (Y : ivl N) | OAssignValue (v : N) | OAssignIvl (Y : ivl N).
  Definition istep X (o : iop) : outcome (ivl N) :=
    match o with
    | OReset => Ret (ireset_default X)
    | OResetValue v => Ret (ireset_value X v)
    | OResetIvl Y => Ret (ireset X Y)
    | OAssignValue v => Ret (iassign_value X v)
    | OAssignIvl Y => iassign X Y
    end.
  Fixpoint irun X (ops : list iop) : outcome (ivl N) :=
    match ops with
    | [] => Ret X
    | o :: ops' => X' <- istep X o ;; irun X' ops'
    end.

  (** The branching pattern of README.md 44-60, a client program: for each condition, [if (possibly(c)) assign_partial(result, Y)]. *)
  Fixpoint run_branches X (l : list (bset * ivl N)) : outcome (ivl N) :=
    match l with
    | [] => Ret X
    | (c, Y) :: l' => X' <- (if possibly c then free_assign_partial X Y else Ret X) ;; run_branches X' l'
    end.
End Arith.
