(** Mathematical functions of floating-point intervals (interval.hpp 482-526, 1021-1375), the scalar functions they are built
    from (math.hpp 20-257), and narrowing conversions (interval.hpp 1391-1423; math.hpp 293-310). *)
From Coq Require Import Bool List ZArith.
From Verif Require Import Outcome SetModel Num IntervalModel IntNum.
Open Scope Z_scope.

(** The functions of <cmath> for a floating-point type, [std::numbers::pi_v], the conversions from an integer and to
    long long (undefined behaviour if the truncated value is not representable). *)
Record math (N : num) := {
  m_sqrt : N -> N; m_cbrt : N -> N; m_log : N -> N; m_exp : N -> N; m_pow : N -> N -> N;
  m_cos : N -> N; m_sin : N -> N; m_tan : N -> N; m_asin : N -> N; m_acos : N -> N; m_atan : N -> N; m_atan2 : N -> N -> N;
  m_fmod : N -> N -> N; m_floor : N -> N; m_ceil : N -> N; m_round : N -> N;
  m_pi : N;
  m_of_Z : Z -> N;
  m_trunc : N -> outcome Z
}.
Arguments m_sqrt {N}. Arguments m_cbrt {N}. Arguments m_log {N}. Arguments m_exp {N}. Arguments m_pow {N}.
Arguments m_cos {N}. Arguments m_sin {N}. Arguments m_tan {N}. Arguments m_asin {N}. Arguments m_acos {N}. Arguments m_atan {N}. Arguments m_atan2 {N}.
Arguments m_fmod {N}. Arguments m_floor {N}. Arguments m_ceil {N}. Arguments m_round {N}.
Arguments m_pi {N}. Arguments m_of_Z {N}. Arguments m_trunc {N}.

Section Math.
  Context {N : num} (M : math N) (dbg : bool).
  Implicit Types (X Y : ivl N) (x y a b f : arg N) (u v w : N).

  (** [std::isnan], [std::isinf], [std::isfinite] (math.hpp 193-210). *)
  Definition nan_b v : bool := negb (o_eq v v).
  Definition inf_b v : bool := is_ninf v || is_pinf v.
  Definition finite_b v : bool := negb (nan_b v) && negb (inf_b v).

  (** [wraparound] (math.hpp 20-33).  The inner call of [fmod] in line 32 is unqualified.  Where [<cmath>] declares only the
      overload for [double] outside of [std], it is computed in [double] for every [T]; the model takes the overload for [T]. *)
  Definition wraparound v (min max : N) : outcome N :=
    expects (o_lt min max) ;;;
    range <- n_sub max min ;;
    d <- n_sub v min ;;
    s <- n_add range (m_fmod M d range) ;;
    n_add min (m_fmod M s range).

  (** Scalar functions with their debug checks (math.hpp 84-191). *)
  Definition ssqrt v : outcome N := expects_debug dbg (o_le n_zero v) ;;; Ret (m_sqrt M v).
  Definition scbrt v : outcome N := Ret (m_cbrt M v).
  Definition slog v : outcome N := expects_debug dbg (o_le n_zero v) ;;; Ret (m_log M v).
  Definition sexp v : outcome N := Ret (m_exp M v).
  Definition spow v w : outcome N := Ret (m_pow M v w).
  Definition ssin v : outcome N := Ret (m_sin M v).
  Definition scos v : outcome N := Ret (m_cos M v).
  Definition stan v : outcome N := Ret (m_tan M v).
  Definition sasin v : outcome N := expects_debug dbg (o_le n_mone v && o_le v n_one) ;;; Ret (m_asin M v).
  Definition sacos v : outcome N := expects_debug dbg (o_le n_mone v && o_le v n_one) ;;; Ret (m_acos M v).
  Definition satan v : outcome N := Ret (m_atan M v).
  Definition satan2 v w : outcome N := expects_debug dbg (negb (o_eq v n_zero) || o_lt n_zero w) ;;; Ret (m_atan2 M v w).
  Definition sfloor v : outcome N := Ret (m_floor M v).
  Definition sceil v : outcome N := Ret (m_ceil M v).
  Definition sround v : outcome N := Ret (m_round M v).
  Definition sfrac v : outcome N := n_sub v (m_floor M v).

  (** [sqrt], [cbrt] (interval.hpp 1021-1040): end points sorted; [log], [exp] (1041-1056): two-argument constructor. *)
  Definition isqrt X : outcome (ivl N) :=
    expects_debug dbg (assigned X) ;;; l <- ssqrt (lo X) ;; u <- ssqrt (hi X) ;; from_unordered_bounds l u.
  Definition icbrt X : outcome (ivl N) :=
    expects_debug dbg (assigned X) ;;; l <- scbrt (lo X) ;; u <- scbrt (hi X) ;; from_unordered_bounds l u.
  Definition ilog X : outcome (ivl N) :=
    expects_debug dbg (assigned X) ;;; l <- slog (lo X) ;; u <- slog (hi X) ;; mk l u.
  Definition iexp X : outcome (ivl N) :=
    expects_debug dbg (assigned X) ;;; l <- sexp (lo X) ;; u <- sexp (hi X) ;; mk l u.
  (** [acos], [asin], [atan] (interval.hpp 1155-1184). *)
  Definition iacos X : outcome (ivl N) :=
    expects_debug dbg (assigned X) ;;; l <- sacos (hi X) ;; u <- sacos (lo X) ;; from_unordered_bounds l u.
  Definition iasin X : outcome (ivl N) :=
    expects_debug dbg (assigned X) ;;; l <- sasin (lo X) ;; u <- sasin (hi X) ;; from_unordered_bounds l u.
  Definition iatan X : outcome (ivl N) :=
    expects_debug dbg (assigned X) ;;; l <- satan (lo X) ;; u <- satan (hi X) ;; from_unordered_bounds l u.

  (** [_multiply_0] (interval.hpp 482-526). *)
  Definition mul0 v w : outcome N :=
    r <- n_mul v w ;;
    Ret (if nan_b r && ((inf_b v && o_eq w n_zero) || (inf_b w && o_eq v n_zero)) then n_zero else r).
  Definition amul0 x y : outcome (arg N) :=
    match x, y with
    | Sc v, Sc w => r <- mul0 v w ;; Ret (Sc r)
    | Sc v, Iv Y => v1 <- mul0 v (lo Y) ;; v2 <- mul0 v (hi Y) ;; R <- hull2 v1 v2 ;; Ret (Iv R)
    | Iv X, Sc w => v1 <- mul0 (lo X) w ;; v2 <- mul0 (hi X) w ;; R <- hull2 v1 v2 ;; Ret (Iv R)
    | Iv X, Iv Y =>
        v1 <- mul0 (lo X) (lo Y) ;; v2 <- mul0 (lo X) (hi Y) ;;
        v3 <- mul0 (hi X) (lo Y) ;; v4 <- mul0 (hi X) (hi Y) ;; R <- hull4 v1 v2 v3 v4 ;; Ret (Iv R)
    end.
  (** The overloads for scalars and intervals of the functions used by [pow]. *)
  Definition amax0 x : outcome (arg N) :=
    match x with Sc v => Ret (Sc (omax n_zero v)) | Iv _ => R <- imax dbg (Sc n_zero) x ;; Ret (Iv R) end.
  Definition aneg x : outcome (arg N) :=
    match x with Sc v => r <- n_neg v ;; Ret (Sc r) | Iv X => R <- ineg dbg X ;; Ret (Iv R) end.
  Definition alog x : outcome (arg N) :=
    match x with Sc v => r <- slog v ;; Ret (Sc r) | Iv X => R <- ilog X ;; Ret (Iv R) end.
  Definition aexp x : outcome (arg N) :=
    match x with Sc v => r <- sexp v ;; Ret (Sc r) | Iv X => R <- iexp X ;; Ret (Iv R) end.
  Definition asign (s : N) x : outcome (arg N) :=
    match x with Sc v => r <- n_mul s v ;; Ret (Sc r) | Iv X => R <- imul dbg (Sc s) x ;; Ret (Iv R) end.
  Definition aassign (R : ivl N) x : outcome (ivl N) :=
    match x with Sc v => Ret (iassign_value R v) | Iv X => iassign R X end.
  (** [possibly(x >= 0)], [possibly(x < 0)]. *)
  Definition possibly_nonneg x : outcome bool :=
    match x with Sc v => Ret (o_le n_zero v) | Iv _ => c <- rel_geq dbg x (Sc n_zero) ;; Ret (possibly c) end.
  Definition possibly_neg x : outcome bool :=
    match x with Sc v => Ret (o_lt v n_zero) | Iv _ => c <- rel_lt dbg x (Sc n_zero) ;; Ret (possibly c) end.
  (** [pow] (interval.hpp 1057-1090) for at least one interval argument. *)
  Definition ipow x y : outcome (ivl N) :=
    expects_debug dbg (aassigned x && aassigned y) ;;;
    p <- possibly_nonneg x ;;
    result <- (if p then m <- amax0 x ;; l <- alog m ;; e <- amul0 y l ;; e <- aexp e ;; aassign ivl_default e
               else Ret ivl_default) ;;
    n <- possibly_neg x ;;
    if n then
      yi <- m_trunc M (alower y) ;;
      if o_eq (alower y) (aupper y) && o_eq (m_of_Z M yi) (alower y) then
        nx <- aneg x ;; m <- amax0 nx ;; l <- alog m ;; e <- amul0 (Sc (alower y)) l ;; e <- aexp e ;;
        e <- asign (if Z.rem yi 2 =? 0 then n_one else n_mone) e ;;
        aassign result e
      else nan_interval
    else Ret result.

  (** [cos], [sin] (interval.hpp 1092-1136).  Simplification: the cosines of the shifted end points, which have no effects, are
      evaluated before the case distinction. *)
  Definition icos X : outcome (ivl N) :=
    expects_debug dbg (assigned X) ;;;
    mpi <- n_neg (m_pi M) ;;
    l <- wraparound (lo X) mpi (m_pi M) ;;
    delta <- n_sub l (lo X) ;;
    h <- n_add (hi X) delta ;;
    pi2 <- n_mul (m_of_Z M 2) (m_pi M) ;;
    cl <- scos l ;; ch <- scos h ;;
    if o_le l n_zero then
      if o_le h n_zero then from_unordered_bounds cl ch
      else if o_le h (m_pi M) then mk (omin cl ch) n_one
      else mk n_mone n_one
    else
      if o_le h (m_pi M) then from_unordered_bounds ch cl
      else if o_le h pi2 then mk n_mone (omax cl ch)
      else mk n_mone n_one.
  Definition isin X : outcome (ivl N) :=
    h <- n_div (m_pi M) (m_of_Z M 2) ;;
    Y <- isub dbg (Iv X) (Sc h) ;;
    icos Y.
  (** [tan] (interval.hpp 1137-1154). *)
  Definition itan X : outcome (ivl N) :=
    expects_debug dbg (assigned X) ;;;
    mpi <- n_neg (m_pi M) ;;
    mh <- n_div mpi (m_of_Z M 2) ;; ph <- n_div (m_pi M) (m_of_Z M 2) ;;
    l <- wraparound (lo X) mh ph ;;
    delta <- n_sub l (lo X) ;;
    h <- n_add (hi X) delta ;;
    width <- n_sub h l ;;
    if o_le (m_pi M) width then inf_interval
    else tl <- stan l ;; th <- stan h ;; from_unordered_bounds tl th.

  (** [atan2] (interval.hpp 1185-1216); the scalar-scalar case is the overload math.hpp 159-166. *)
  Definition iatan2 y x : outcome (ivl N) :=
    expects_debug dbg (aassigned y && aassigned x) ;;;
    if o_le (alower x) n_zero && acontains y n_zero then nan_interval
    else match y, x with
         | Sc v, _ => v1 <- satan2 v (alower x) ;; v2 <- satan2 v (aupper x) ;; hull2 v1 v2
         | Iv Y, Sc w => v1 <- satan2 (lo Y) w ;; v2 <- satan2 (hi Y) w ;; hull2 v1 v2
         | Iv Y, Iv X =>
             v1 <- satan2 (lo Y) (lo X) ;; v2 <- satan2 (lo Y) (hi X) ;;
             v3 <- satan2 (hi Y) (lo X) ;; v4 <- satan2 (hi Y) (hi X) ;; hull4 v1 v2 v3 v4
         end.

  (** [floor], [ceil], [round], [frac] (interval.hpp 1218-1256). *)
  Definition ifloor X : outcome (ivl N) :=
    expects_debug dbg (assigned X) ;;; l <- sfloor (lo X) ;; u <- sfloor (hi X) ;; mk l u.
  Definition iceil X : outcome (ivl N) :=
    expects_debug dbg (assigned X) ;;; l <- sceil (lo X) ;; u <- sceil (hi X) ;; mk l u.
  Definition iround X : outcome (ivl N) :=
    expects_debug dbg (assigned X) ;;; l <- sround (lo X) ;; u <- sround (hi X) ;; mk l u.
  Definition ifrac X : outcome (ivl N) :=
    expects_debug dbg (assigned X) ;;;
    lfloor <- sfloor (lo X) ;; ufloor <- sfloor (hi X) ;;
    if negb (o_eq lfloor ufloor) then mk n_zero n_one
    else l <- n_sub (lo X) lfloor ;; u <- n_sub (hi X) ufloor ;; mk l u.

  (** [gsl_ExpectsDebug(always(c))]: the condition is only evaluated in debug builds. *)
  Definition check (c : outcome bool) : outcome unit := if dbg then b <- c ;; expects b else Ret tt.
  Definition always_nonneg x : outcome bool :=
    match x with Sc v => Ret (o_le n_zero v) | Iv _ => c <- rel_geq dbg x (Sc n_zero) ;; Ret (always c) end.
  Definition always_positive_sum x y : outcome bool :=
    match x, y with
    | Sc v, Sc w => s <- n_add v w ;; Ret (o_lt n_zero s)
    | _, _ => s <- iadd dbg x y ;; c <- rel_gt dbg (Iv s) (Sc n_zero) ;; Ret (always c)
    end.
  Definition always_fraction f : outcome bool :=
    match f with
    | Sc v => Ret (o_le n_zero v && o_le v n_one)
    | Iv _ => c <- rel_geq dbg f (Sc n_zero) ;; d <- rel_leq dbg f (Sc n_one) ;; Ret (always (band c d))
    end.
  (** Scalar [fractional_weights], [blend_fractions], [blend_linear], [blend_quadratic] (math.hpp 225-257). *)
  Definition sweights v w : outcome (N * N) :=
    check (Ret (o_le n_zero v)) ;;; check (Ret (o_le n_zero w)) ;;; check (s <- n_add v w ;; Ret (o_lt n_zero s)) ;;;
    s <- n_add v w ;; p <- n_div v s ;; q <- n_div w s ;; Ret (p, q).
  Definition sblend_fractions (f x y : N) : outcome N :=
    expects_debug dbg (o_le n_zero f && o_le f n_one) ;;;
    p <- n_mul f x ;; g <- n_sub n_one f ;; q <- n_mul g y ;; n_add p q.
  Definition sblend_linear (a b x y : N) : outcome N :=
    '(wa, wb) <- sweights a b ;; p <- n_mul wa x ;; q <- n_mul wb y ;; n_add p q.
  Definition sblend_quadratic (a b x y : N) : outcome N :=
    '(wa, wb) <- sweights a b ;; p <- n_mul wa x ;; q <- n_mul wb y ;;
    p2 <- nsquare p ;; q2 <- nsquare q ;; s <- n_add p2 q2 ;; Ret (m_sqrt M s).
  (** [fractional_weights] (interval.hpp 1258-1276). *)
  Definition iweights a b : outcome (ivl N * ivl N) :=
    expects_debug dbg (aassigned a && aassigned b) ;;;
    check (always_nonneg a) ;;; check (always_nonneg b) ;;; check (always_positive_sum a b) ;;;
    let alo := alower a in let ahi := aupper a in let blo := alower b in let bhi := aupper b in
    s <- n_add alo bhi ;; t <- n_add ahi blo ;;
    p <- n_div alo s ;; q <- n_div ahi t ;; A <- mk p q ;;
    p <- n_div blo t ;; q <- n_div bhi s ;; B <- mk p q ;;
    Ret (A, B).
  (** [blend_fractions] (interval.hpp 1278-1301). *)
  Definition iblend_fractions f x y : outcome (ivl N) :=
    expects_debug dbg (aassigned f && aassigned x && aassigned y) ;;;
    check (always_fraction f) ;;;
    let qlo := if o_le (alower y) (alower x) then alower f else aupper f in
    let qhi := if o_le (aupper y) (aupper x) then aupper f else alower f in
    p <- n_mul qlo (alower x) ;; g <- n_sub n_one qlo ;; q <- n_mul g (alower y) ;; rlo <- n_add p q ;;
    p <- n_mul qhi (aupper x) ;; g <- n_sub n_one qhi ;; q <- n_mul g (aupper y) ;; rhi <- n_add p q ;;
    from_unordered_bounds rlo rhi.
  (** [blend_linear] (interval.hpp 1303-1337). *)
  Definition iblend_linear a b x y : outcome (ivl N) :=
    expects_debug dbg (aassigned a && aassigned b && aassigned x && aassigned y) ;;;
    check (always_nonneg a) ;;; check (always_nonneg b) ;;; check (always_positive_sum a b) ;;;
    q <- n_div (aupper b) (alower a) ;; d <- n_add n_one q ;; qlo <- n_div n_one d ;;
    q <- n_div (alower b) (aupper a) ;; d <- n_add n_one q ;; qhi <- n_div n_one d ;;
    F <- mk qlo qhi ;;
    iblend_fractions (Iv F) x y.

  (** [isinf], [isfinite], [isnan] (interval.hpp 1339-1375). *)
  Definition iisinf X : outcome bset :=
    expects_debug dbg (assigned X) ;;;
    let r := set_empty in
    let r := if is_ninf (lo X) || is_pinf (hi X) then bassign r true else r in
    Ret (if negb (is_ninf (hi X)) && negb (is_pinf (lo X)) then bassign r false else r).
  Definition iisfinite X : outcome bset := c <- iisinf X ;; bnot dbg c.
  Definition iisnan X : outcome bset :=
    expects_debug dbg (assigned X) ;;;
    Ret (if nan_b (lo X) || nan_b (hi X) then bset_both else bset_of false).
End Math.

(** Narrowing conversions between signed integer types (interval.hpp 1391-1423); [w'] is the width of the target.  The scalar
    conversions are those of gsl-lite: [narrow] throws, [narrow_failfast] fails fast if the value is not representable,
    [narrow_cast] is a static_cast, which reduces modulo 2^w' (C++20). *)
Section Narrow.
  Context {w w' : Z} (Hw' : 2 <= w').
  Lemma wrap_in_range z : in_range w' ((z + 2 ^ (w' - 1)) mod 2 ^ w' - 2 ^ (w' - 1)) = true.
  Proof.
    unfold in_range, int_min, int_max.
    assert (P : 0 < 2 ^ w') by (apply Z.pow_pos_nonneg; [reflexivity|now apply Z.le_trans with 2]).
    assert (E : 2 ^ w' = 2 * 2 ^ (w' - 1)).
    { rewrite <- Z.pow_succ_r by (apply Z.le_trans with (2 - 1); [discriminate|now apply Z.sub_le_mono_r]). f_equal. ring. }
    destruct (Z.mod_pos_bound (z + 2 ^ (w' - 1)) (2 ^ w') P) as [L U]. apply andb_true_iff. split; apply Z.leb_le.
    - rewrite <- (Z.sub_0_l (2 ^ (w' - 1))). now apply Z.sub_le_mono_r.
    - apply Z.lt_succ_r. unfold Z.succ. replace (2 ^ (w' - 1) - 1 + 1) with (2 ^ w' - 2 ^ (w' - 1)) by (rewrite E; ring). now apply Z.sub_lt_mono_r.
  Qed.
  Definition narrow_value (v : int_ordty w) : outcome (int_ordty w') := match int_of w' (val v) with Ret a => Ret a | _ => Throw end.
  Definition narrow_failfast_value (v : int_ordty w) : outcome (int_ordty w') := match int_of w' (val v) with Ret a => Ret a | _ => FailFast end.
  Definition narrow_cast_value (v : int_ordty w) : int_ordty w' := exist _ _ (wrap_in_range (val v)).
  Definition narrow_ (X : ivl (int_ordty w)) : outcome (ivl (int_ordty w')) :=
    if assigned X then l <- narrow_value (lo X) ;; u <- narrow_value (hi X) ;; mk l u else Ret (@ivl_default (int_num w' Hw')).
  Definition narrow_failfast_ (X : ivl (int_ordty w)) : outcome (ivl (int_ordty w')) :=
    if assigned X then l <- narrow_failfast_value (lo X) ;; u <- narrow_failfast_value (hi X) ;; mk l u else Ret (@ivl_default (int_num w' Hw')).
  Definition narrow_cast_ (X : ivl (int_ordty w)) : outcome (ivl (int_ordty w')) :=
    if assigned X then mk (narrow_cast_value (lo X)) (narrow_cast_value (hi X)) else Ret (@ivl_default (int_num w' Hw')).
End Narrow.
