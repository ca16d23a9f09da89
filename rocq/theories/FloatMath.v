(** <cmath> for IEEE-754 binary formats.  sqrt is correctly rounded and floor, ceil, round, fmod are exact, as IEEE-754 and the
    C standard require.  The remaining functions of the C library are not specified: they are parameters ([libm]). *)
From Coq Require Import ZArith Bool.
From Flocq Require Import Core BinarySingleNaN.
From Verif Require Import Outcome Num IntNum FloatNum MathModel.
Open Scope Z_scope.

Record libm (T : Type) := {
  l_cbrt : T -> T; l_log : T -> T; l_exp : T -> T; l_pow : T -> T -> T; l_cos : T -> T; l_sin : T -> T; l_tan : T -> T;
  l_asin : T -> T; l_acos : T -> T; l_atan : T -> T; l_atan2 : T -> T -> T; l_pi : T
}.
Arguments l_cbrt {T}. Arguments l_log {T}. Arguments l_exp {T}. Arguments l_pow {T}. Arguments l_cos {T}. Arguments l_sin {T}. Arguments l_tan {T}.
Arguments l_asin {T}. Arguments l_acos {T}. Arguments l_atan {T}. Arguments l_atan2 {T}. Arguments l_pi {T}.

Section FloatMath.
  Variables (prec emax : Z) (Hp : Prec_gt_0 prec) (He : Prec_lt_emax prec emax).
  Existing Instance Hp.
  Existing Instance He.
  Notation float := (binary_float prec emax).

  (** [std::fmod] (used in math.hpp 32): x - n y with n the quotient truncated towards zero; the result has the sign of x. *)
  Definition Bfmod (x y : float) : float :=
    match x, y with
    | B754_nan, _ | _, B754_nan | B754_infinity _, _ | _, B754_zero _ => B754_nan
    | B754_zero _, _ => x
    | B754_finite _ _ _ _, B754_infinity _ => x
    | B754_finite sx mx ex _, B754_finite _ my ey _ =>
        let e := Z.min ex ey in
        binary_normalize prec emax Hp He mode_NE
          (Z.rem (cond_Zopp sx (Zpos mx * 2 ^ (ex - e))) (Zpos my * 2 ^ (ey - e))) e sx
    end.
  (** Conversion of a floating-point number to long long (interval.hpp 1074): truncation; undefined behaviour if the
      result is not representable or the number is not finite. *)
  Definition to_long_long (x : float) : outcome Z :=
    if is_finite x && in_range 64 (Btrunc x) then Ret (Btrunc x) else UB.
  Definition float_math (L : libm float) : math (float_num prec emax Hp He) := {|
    m_sqrt := Bsqrt mode_NE : float_num prec emax Hp He -> float_num prec emax Hp He;
    m_cbrt := l_cbrt L; m_log := l_log L; m_exp := l_exp L; m_pow := l_pow L; m_cos := l_cos L; m_sin := l_sin L; m_tan := l_tan L;
    m_asin := l_asin L; m_acos := l_acos L; m_atan := l_atan L; m_atan2 := l_atan2 L;
    m_fmod := Bfmod;
    m_floor := Bnearbyint mode_DN; m_ceil := Bnearbyint mode_UP; m_round := Bnearbyint mode_NA;
    m_pi := l_pi L;
    m_of_Z := fun z => binary_normalize prec emax Hp He mode_NE z 0 false;
    m_trunc := to_long_long
  |}.
End FloatMath.
