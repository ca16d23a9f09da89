(** [pow] of a floating-point base and an exponent of a signed integer type (interval.hpp 1057-1090).  The base cannot be an
    integer: [intervals::log] takes floating-point arguments only. *)
From Coq Require Import Reals Bool ZArith.
From Verif Require Import Outcome SetModel Num IntervalModel IntNum MathModel XReal RealNum RealMath FloatNum FloatMath MixedModel.

Section Pow.
  Context {w : Z} {Hw : (2 <= w)%Z} {N : num} (M : math N) (c : int_num w Hw -> N) (dbg : bool).
  Implicit Types (x : arg N) (y : arg (int_num w Hw)).

  (** [_multiply_0] (interval.hpp 486-526) with an integer on the left. *)
  Definition mixed_mul0 (v : int_num w Hw) (u : N) : outcome N :=
    r <- n_mul (c v) u ;;
    Ret (if nan_b r && ((inf_b v && o_eq u n_zero) || (inf_b u && o_eq v n_zero)) then n_zero else r).
  Definition mixed_amul0 y x : outcome (arg N) :=
    match y, x with
    | Sc v, Sc u => r <- mixed_mul0 v u ;; Ret (Sc r)
    | Sc v, Iv X => v1 <- mixed_mul0 v (lo X) ;; v2 <- mixed_mul0 v (hi X) ;; R <- hull2 v1 v2 ;; Ret (Iv R)
    | Iv Y, Sc u => v1 <- mixed_mul0 (lo Y) u ;; v2 <- mixed_mul0 (hi Y) u ;; R <- hull2 v1 v2 ;; Ret (Iv R)
    | Iv Y, Iv X =>
        v1 <- mixed_mul0 (lo Y) (lo X) ;; v2 <- mixed_mul0 (lo Y) (hi X) ;;
        v3 <- mixed_mul0 (hi Y) (lo X) ;; v4 <- mixed_mul0 (hi Y) (hi X) ;; R <- hull4 v1 v2 v3 v4 ;; Ret (Iv R)
    end.
  (** [pow] (interval.hpp 1057-1090).  Integers of at most 64 bits: converting the exponent to [long long] and
      back (1074-1075) does not change it. *)
  Definition mixed_pow x y : outcome (ivl N) :=
    expects_debug dbg (aassigned x && aassigned y) ;;;
    p <- possibly_nonneg dbg x ;;
    result <- (if p then m <- amax0 dbg x ;; l <- alog M dbg m ;; e <- mixed_amul0 y l ;; e <- aexp M dbg e ;; aassign ivl_default e
               else Ret ivl_default) ;;
    n <- possibly_neg dbg x ;;
    if n then
      if o_eq (alower y) (aupper y) then
        nx <- aneg dbg x ;; m <- amax0 dbg nx ;; l <- alog M dbg m ;; e <- mixed_amul0 (Sc (alower y)) l ;; e <- aexp M dbg e ;;
        e <- asign dbg (if Z.rem (val (alower y)) 2 =? 0 then n_one else n_mone)%Z e ;;
        aassign result e
      else nan_interval
    else Ret result.
End Pow.

(** The exponent converted to the type of the base: rounded to nearest for a floating-point type wide enough for its range, and exactly
    in real arithmetic (the usual arithmetic conversions in interval.hpp 489). *)
Inductive pow_conv {w : Z} {Hw : (2 <= w)%Z} : forall N : num, math N -> (int_num w Hw -> N) -> Prop :=
| pc_float prec emax Hp He L : (w <= emax)%Z -> pow_conv (float_num prec emax Hp He) (float_math prec emax Hp He L) (int_to_float w prec emax Hp He)
| pc_real : pow_conv real_num real_math (fun n => XFin (IZR (val n))).
