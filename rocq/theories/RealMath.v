(** <cmath> in exact real arithmetic (the idealisation of RealNum.v), with the limits at the infinities. *)
From Coq Require Import Reals ZArith Bool.
From Flocq Require Import Core.
From Verif Require Import Outcome Num IntNum XReal RealNum MathModel.
Open Scope R_scope.

(** Cube root. *)
Definition Rcbrt (r : R) : R :=
  match Rcompare r 0 with Lt => - Rpower (- r) (/ 3) | Eq => 0 | Gt => Rpower r (/ 3) end.
(** The angle of the point (x, y) in (-PI, PI]; 0 for the origin (IEEE-754: atan2(+0, +0) = +0; there is one zero here). *)
Definition Ratan2 (y x : R) : R :=
  match Rcompare x 0 with
  | Gt => atan (y / x)
  | Eq => match Rcompare y 0 with Gt => PI / 2 | Eq => 0 | Lt => - (PI / 2) end
  | Lt => if Rle_bool 0 y then atan (y / x) + PI else atan (y / x) - PI
  end.
(** The remainder of the truncated quotient. *)
Definition Rfmod (a b : R) : R := a - IZR (Ztrunc (a / b)) * b.
(** x^y as defined for real numbers: x > 0; x = 0 (limits as in IEEE-754); x < 0 and y an integer. *)
Definition Rpow (x y : R) : xr :=
  match Rcompare x 0 with
  | Gt => XFin (Rpower x y)
  | Eq => match Rcompare y 0 with Gt => XFin 0 | Eq => XFin 1 | Lt => XPinf end
  | Lt => if Req_bool y (IZR (Ztrunc y)) then XFin (powerRZ x (Ztrunc y)) else XNan
  end.

Definition xlift (f : R -> R) (x : xr) : xr := match x with XFin r => XFin (f r) | _ => XNan end.
Definition real_math : math real_num := {|
  m_sqrt := fun x : real_num => match x with XFin r => if Rlt_bool r 0 then XNan else XFin (sqrt r) | XPinf => XPinf | _ => XNan end;
  m_cbrt := fun x : real_num => match x with XFin r => XFin (Rcbrt r) | _ => x end;
  m_log := fun x : real_num => match x with
             | XFin r => match Rcompare r 0 with Lt => XNan | Eq => XNinf | Gt => XFin (ln r) end | XPinf => XPinf | _ => XNan end;
  m_exp := fun x : real_num => match x with XFin r => XFin (exp r) | XNinf => XFin 0 | _ => x end;
  (** infinite arguments of pow and atan2 are not modelled *)
  m_pow := fun x y : real_num => match x, y with XFin a, XFin b => Rpow a b | _, _ => XNan end;
  m_cos := xlift cos; m_sin := xlift sin; m_tan := xlift tan;
  m_asin := fun x : real_num => match x with XFin r => if Rle_bool (-1) r && Rle_bool r 1 then XFin (asin r) else XNan | _ => XNan end;
  m_acos := fun x : real_num => match x with XFin r => if Rle_bool (-1) r && Rle_bool r 1 then XFin (acos r) else XNan | _ => XNan end;
  m_atan := fun x : real_num => match x with XFin r => XFin (atan r) | XNinf => XFin (- (PI / 2)) | XPinf => XFin (PI / 2) | XNan => XNan end;
  m_atan2 := fun y x : real_num => match y, x with XFin b, XFin a => XFin (Ratan2 b a) | _, _ => XNan end;
  m_fmod := fun x y : real_num => match x, y with
              | XFin a, XFin b => if Req_bool b 0 then XNan else XFin (Rfmod a b)
              | XFin a, (XNinf | XPinf) => x | _, _ => XNan end;
  m_floor := fun x : real_num => match x with XFin r => XFin (IZR (Zfloor r)) | _ => x end;
  m_ceil := fun x : real_num => match x with XFin r => XFin (IZR (Zceil r)) | _ => x end;
  m_round := fun x : real_num => match x with XFin r => XFin (IZR (ZnearestA r)) | _ => x end;
  m_pi := XFin PI;
  m_of_Z := fun z => XFin (IZR z);
  m_trunc := fun x : real_num => match x with XFin r => if in_range 64 (Ztrunc r) then Ret (Ztrunc r) else UB | _ => UB end
|}.
