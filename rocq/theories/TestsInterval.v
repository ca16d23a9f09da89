(** Tests, not proofs: the assertions of the project's own test program test/test-interval.cpp, evaluated on the model.  They
    check that the model computes what the project expects of the code.  The tables are copied from the test program.
    TestsMath.v holds the assertions about functions of the C library. *)
From Coq Require Import List NArith ZArith Bool.
From Flocq Require Import Core BinarySingleNaN.
From Verif Require Import Outcome SetModel Num IntervalModel IntNum FloatNum FloatMath MathModel ConstrainModel ScalarModel TestsSet.
Import ListNotations.

Definition nzero : float64 := B754_zero true.
Definition relational_rows_double : list (float64 * float64 * float64 * float64 * float64) :=
  [ (n_nan, n_bot, n_bot, n_bot, f64 (-1) 0)
  ; (n_nan, n_bot, f64 (-2) 0, f64 (-1) 0, f64 (-1) (-1))
  ; (n_nan, n_bot, f64 (-1) 0, nzero, f64 1 (-1))
  ; (n_nan, n_bot, f64 0 0, f64 1 0, f64 2 0)
  ; (n_nan, n_bot, f64 0 0, f64 1 0, n_top)
  ; (n_nan, n_bot, f64 0 0, n_top, n_nan)
  ; (f64 (-2) 0, f64 (-3) (-1), f64 (-3) (-1), f64 (-3) (-1), f64 (-1) 0)
  ; (f64 (-2) 0, f64 (-3) (-1), f64 (-1) 0, f64 (-3602879701896397) (-55), f64 0 0)
  ; (f64 (-2) 0, f64 (-3) (-1), f64 (-1) 0, f64 0 0, f64 1 (-1))
  ; (f64 (-2) 0, f64 (-3) (-1), f64 0 0, f64 1 0, f64 2 0)
  ; (f64 (-2) 0, f64 (-3) (-1), f64 0 0, n_top, n_nan)
  ; (f64 (-2) 0, f64 0 0, f64 0 0, f64 0 0, f64 1 0)
  ; (f64 (-2) 0, f64 0 0, f64 3602879701896397 (-55), f64 1 0, f64 3 (-1))
  ; (f64 (-2) 0, f64 0 0, f64 1 0, n_top, n_nan)
  ; (f64 (-2) 0, f64 3602879701896397 (-55), f64 3602879701896397 (-55), f64 3602879701896397 (-55), f64 1 0)
  ; (f64 0 0, f64 3602879701896397 (-55), f64 3602879701896397 (-55), f64 3602879701896397 (-55), f64 1 0)
  ; (f64 5764607523034235 (-59), f64 3602879701896397 (-55), f64 3602879701896397 (-55), f64 3602879701896397 (-55), f64 1 0)
  ; (f64 (-2) 0, f64 3602879701896397 (-55), f64 1 0, f64 2 0, f64 3 0)
  ; (f64 (-2) 0, f64 3602879701896397 (-55), f64 1 0, n_top, n_nan) ].
Definition rows_double : list (float64 * float64 * float64 * float64 * float64) :=
  [ (n_nan, n_bot, n_bot, n_bot, f64 (-1) 0)
  ; (n_nan, n_bot, f64 (-2) 0, f64 (-1) 0, f64 (-1) (-1))
  ; (n_nan, n_bot, f64 (-1) 0, nzero, f64 1 (-1))
  ; (n_nan, n_bot, f64 0 0, f64 1 0, f64 2 0)
  ; (n_nan, n_bot, f64 0 0, f64 1 0, n_top)
  ; (n_nan, n_bot, f64 0 0, n_top, n_nan)
  ; (f64 (-2) 0, f64 (-3) (-1), f64 (-3) (-1), f64 (-3) (-1), f64 (-1) 0)
  ; (f64 (-2) 0, f64 (-3) (-1), f64 (-1) 0, f64 (-3602879701896397) (-55), f64 0 0)
  ; (f64 (-2) 0, f64 (-3) (-1), f64 (-1) 0, nzero, f64 1 (-1))
  ; (f64 (-2) 0, f64 (-3) (-1), f64 0 0, f64 1 0, f64 2 0)
  ; (f64 (-2) 0, f64 (-3) (-1), f64 0 0, n_top, n_nan)
  ; (f64 (-2) 0, f64 0 0, f64 0 0, f64 0 0, f64 1 0)
  ; (f64 (-2) 0, f64 0 0, f64 3602879701896397 (-55), f64 1 0, f64 3 (-1))
  ; (f64 (-2) 0, f64 0 0, f64 1 0, n_top, n_nan)
  ; (f64 (-2) 0, f64 3602879701896397 (-55), f64 3602879701896397 (-55), f64 3602879701896397 (-55), f64 1 0)
  ; (f64 0 0, f64 3602879701896397 (-55), f64 3602879701896397 (-55), f64 3602879701896397 (-55), f64 1 0)
  ; (f64 5764607523034235 (-59), f64 3602879701896397 (-55), f64 3602879701896397 (-55), f64 3602879701896397 (-55), f64 1 0)
  ; (f64 (-2) 0, f64 3602879701896397 (-55), f64 1 0, f64 2 0, f64 3 0)
  ; (f64 (-2) 0, f64 3602879701896397 (-55), f64 1 0, n_top, n_nan) ].
Definition rows_int : list (int32 * int32 * int32 * int32 * int32) :=
  [ (i32 (-200), i32 (-150), i32 (-150), i32 (-150), i32 (-100))
  ; (i32 (-200), i32 (-150), i32 (-100), i32 (-10), i32 0)
  ; (i32 (-200), i32 (-150), i32 (-100), i32 0, i32 50)
  ; (i32 (-200), i32 (-150), i32 0, i32 100, i32 200)
  ; (i32 (-200), i32 0, i32 0, i32 0, i32 100)
  ; (i32 (-200), i32 0, i32 10, i32 100, i32 150)
  ; (i32 (-200), i32 10, i32 10, i32 10, i32 100)
  ; (i32 0, i32 10, i32 10, i32 10, i32 100)
  ; (i32 1, i32 10, i32 10, i32 10, i32 100)
  ; (i32 (-200), i32 10, i32 100, i32 200, i32 300) ].
Definition atan2_rows : list (ivl float64 * ivl float64 * bool) :=
  [ (Ivl (f64 (-3) 0) (f64 (-3) 0), Ivl (f64 (-4) 0) (f64 (-4) 0), false)
  ; (Ivl (f64 2 0) (f64 2 0), Ivl (f64 (-4) 0) (f64 (-4) 0), false)
  ; (Ivl (f64 2 0) (f64 2 0), Ivl (f64 1 0) (f64 1 0), false)
  ; (Ivl (f64 (-3) 0) (f64 (-3) 0), Ivl (f64 1 0) (f64 1 0), false)
  ; (Ivl (f64 (-3) 0) (f64 (-1) 0), Ivl (f64 (-4) 0) (f64 (-2) 0), false)
  ; (Ivl (f64 (-3) 0) (f64 0 0), Ivl (f64 (-4) 0) (f64 (-2) 0), false)
  ; (Ivl (f64 (-3) 0) (f64 2 0), Ivl (f64 (-4) 0) (f64 (-2) 0), false)
  ; (Ivl (f64 0 0) (f64 2 0), Ivl (f64 (-4) 0) (f64 (-2) 0), false)
  ; (Ivl (f64 1 0) (f64 4 0), Ivl (f64 (-4) 0) (f64 0 0), false)
  ; (Ivl (f64 1 0) (f64 4 0), Ivl (f64 (-4) 0) (f64 2 0), false)
  ; (Ivl (f64 1 0) (f64 4 0), Ivl (f64 0 0) (f64 2 0), false)
  ; (Ivl (f64 1 0) (f64 4 0), Ivl (f64 1 0) (f64 2 0), false)
  ; (Ivl (f64 0 0) (f64 4 0), Ivl (f64 1 0) (f64 2 0), false)
  ; (Ivl (f64 (-3) 0) (f64 2 0), Ivl (f64 1 0) (f64 2 0), false)
  ; (Ivl (f64 (-3) 0) (f64 0 0), Ivl (f64 1 0) (f64 2 0), false)
  ; (Ivl (f64 (-3) 0) (f64 (-1) 0), Ivl (f64 1 0) (f64 2 0), false)
  ; (Ivl (f64 (-3) 0) (f64 0 0), Ivl (f64 0 0) (f64 0 0), true)
  ; (Ivl (f64 0 0) (f64 0 0), Ivl (f64 0 0) (f64 2 0), true)
  ; (Ivl (f64 0 0) (f64 0 0), Ivl (f64 0 0) (f64 0 0), true)
  ; (Ivl (f64 (-3) 0) (f64 0 0), Ivl (f64 0 0) (f64 2 0), true)
  ; (Ivl (f64 (-3) 0) (f64 0 0), Ivl (f64 (-1) 0) (f64 2 0), true)
  ; (Ivl (f64 (-3) 0) (f64 0 0), Ivl (f64 (-1) 0) (f64 0 0), true)
  ; (Ivl (f64 0 0) (f64 1 0), Ivl (f64 0 0) (f64 2 0), true)
  ; (Ivl (f64 0 0) (f64 1 0), Ivl (f64 (-1) 0) (f64 2 0), true)
  ; (Ivl (f64 0 0) (f64 1 0), Ivl (f64 (-1) 0) (f64 0 0), true)
  ; (Ivl (f64 (-3) 0) (f64 1 0), Ivl (f64 0 0) (f64 2 0), true)
  ; (Ivl (f64 (-3) 0) (f64 1 0), Ivl (f64 (-1) 0) (f64 2 0), true)
  ; (Ivl (f64 (-3) 0) (f64 1 0), Ivl (f64 (-1) 0) (f64 0 0), true) ].
Definition less_rows_double : list (ivl float64 * ivl float64 * bset * bset * ivl float64 * ivl float64) :=
  [ (Ivl (f64 (-2) 0) (f64 (-2) 0), Ivl (f64 1 0) (f64 1 0), bs [true], bs [true], Ivl (f64 (-2) 0) (f64 (-2) 0), Ivl (f64 1 0) (f64 1 0))
  ; (Ivl (f64 1 0) (f64 1 0), Ivl (f64 1 0) (f64 1 0), bs [false], bs [true], Ivl (f64 1 0) (f64 1 0), Ivl (f64 1 0) (f64 1 0))
  ; (Ivl (f64 3 0) (f64 3 0), Ivl (f64 1 0) (f64 1 0), bs [false], bs [false], Ivl (f64 0 0) (f64 0 0), Ivl (f64 0 0) (f64 0 0))
  ; (Ivl (f64 (-2) 0) (f64 (-1) 0), Ivl (f64 1 0) (f64 1 0), bs [true], bs [true], Ivl (f64 (-2) 0) (f64 (-1) 0), Ivl (f64 1 0) (f64 1 0))
  ; (Ivl (f64 (-2) 0) (f64 1 0), Ivl (f64 1 0) (f64 1 0), bs [false; true], bs [true], Ivl (f64 (-2) 0) (f64 1 0), Ivl (f64 1 0) (f64 1 0))
  ; (Ivl (f64 (-2) 0) (f64 3 0), Ivl (f64 1 0) (f64 1 0), bs [false; true], bs [false; true], Ivl (f64 (-2) 0) (f64 1 0), Ivl (f64 1 0) (f64 1 0))
  ; (Ivl (f64 1 0) (f64 3 0), Ivl (f64 1 0) (f64 1 0), bs [false], bs [false; true], Ivl (f64 1 0) (f64 1 0), Ivl (f64 1 0) (f64 1 0))
  ; (Ivl (f64 2 0) (f64 3 0), Ivl (f64 1 0) (f64 1 0), bs [false], bs [false], Ivl (f64 0 0) (f64 0 0), Ivl (f64 0 0) (f64 0 0))
  ; (Ivl (f64 1 0) (f64 1 0), Ivl (f64 2 0) (f64 3 0), bs [true], bs [true], Ivl (f64 1 0) (f64 1 0), Ivl (f64 2 0) (f64 3 0))
  ; (Ivl (f64 1 0) (f64 1 0), Ivl (f64 1 0) (f64 3 0), bs [false; true], bs [true], Ivl (f64 1 0) (f64 1 0), Ivl (f64 1 0) (f64 3 0))
  ; (Ivl (f64 1 0) (f64 1 0), Ivl (f64 (-2) 0) (f64 3 0), bs [false; true], bs [false; true], Ivl (f64 1 0) (f64 1 0), Ivl (f64 1 0) (f64 3 0))
  ; (Ivl (f64 1 0) (f64 1 0), Ivl (f64 (-2) 0) (f64 1 0), bs [false], bs [false; true], Ivl (f64 1 0) (f64 1 0), Ivl (f64 1 0) (f64 1 0))
  ; (Ivl (f64 1 0) (f64 1 0), Ivl (f64 (-2) 0) (f64 (-1) 0), bs [false], bs [false], Ivl (f64 0 0) (f64 0 0), Ivl (f64 0 0) (f64 0 0))
  ; (Ivl (f64 (-2) 0) (f64 (-1) 0), Ivl (f64 1 0) (f64 3 0), bs [true], bs [true], Ivl (f64 (-2) 0) (f64 (-1) 0), Ivl (f64 1 0) (f64 3 0))
  ; (Ivl (f64 (-2) 0) (f64 1 0), Ivl (f64 1 0) (f64 3 0), bs [false; true], bs [true], Ivl (f64 (-2) 0) (f64 1 0), Ivl (f64 1 0) (f64 3 0))
  ; (Ivl (f64 (-2) 0) (f64 2 0), Ivl (f64 1 0) (f64 3 0), bs [false; true], bs [false; true], Ivl (f64 (-2) 0) (f64 2 0), Ivl (f64 1 0) (f64 3 0))
  ; (Ivl (f64 (-2) 0) (f64 3 0), Ivl (f64 1 0) (f64 3 0), bs [false; true], bs [false; true], Ivl (f64 (-2) 0) (f64 3 0), Ivl (f64 1 0) (f64 3 0))
  ; (Ivl (f64 (-2) 0) (f64 5 0), Ivl (f64 1 0) (f64 3 0), bs [false; true], bs [false; true], Ivl (f64 (-2) 0) (f64 3 0), Ivl (f64 1 0) (f64 3 0))
  ; (Ivl (f64 1 0) (f64 2 0), Ivl (f64 1 0) (f64 3 0), bs [false; true], bs [false; true], Ivl (f64 1 0) (f64 2 0), Ivl (f64 1 0) (f64 3 0))
  ; (Ivl (f64 1 0) (f64 3 0), Ivl (f64 1 0) (f64 3 0), bs [false; true], bs [false; true], Ivl (f64 1 0) (f64 3 0), Ivl (f64 1 0) (f64 3 0))
  ; (Ivl (f64 1 0) (f64 5 0), Ivl (f64 1 0) (f64 3 0), bs [false; true], bs [false; true], Ivl (f64 1 0) (f64 3 0), Ivl (f64 1 0) (f64 3 0))
  ; (Ivl (f64 2 0) (f64 3 0), Ivl (f64 1 0) (f64 3 0), bs [false; true], bs [false; true], Ivl (f64 2 0) (f64 3 0), Ivl (f64 2 0) (f64 3 0))
  ; (Ivl (f64 2 0) (f64 5 0), Ivl (f64 1 0) (f64 3 0), bs [false; true], bs [false; true], Ivl (f64 2 0) (f64 3 0), Ivl (f64 2 0) (f64 3 0))
  ; (Ivl (f64 3 0) (f64 5 0), Ivl (f64 1 0) (f64 3 0), bs [false], bs [false; true], Ivl (f64 3 0) (f64 3 0), Ivl (f64 3 0) (f64 3 0))
  ; (Ivl (f64 4 0) (f64 5 0), Ivl (f64 1 0) (f64 3 0), bs [false], bs [false], Ivl (f64 0 0) (f64 0 0), Ivl (f64 0 0) (f64 0 0)) ].
Definition less_rows_int : list (ivl int32 * ivl int32 * bset * bset * ivl int32 * ivl int32 * ivl int32 * ivl int32) :=
  [ (Ivl (i32 (-2)) (i32 (-2)), Ivl (i32 1) (i32 1), bs [true], bs [true], Ivl (i32 (-2)) (i32 (-2)), Ivl (i32 1) (i32 1), Ivl (i32 (-2)) (i32 (-2)), Ivl (i32 1) (i32 1))
  ; (Ivl (i32 1) (i32 1), Ivl (i32 1) (i32 1), bs [false], bs [true], Ivl (i32 0) (i32 0), Ivl (i32 0) (i32 0), Ivl (i32 1) (i32 1), Ivl (i32 1) (i32 1))
  ; (Ivl (i32 3) (i32 3), Ivl (i32 1) (i32 1), bs [false], bs [false], Ivl (i32 0) (i32 0), Ivl (i32 0) (i32 0), Ivl (i32 0) (i32 0), Ivl (i32 0) (i32 0))
  ; (Ivl (i32 (-2)) (i32 (-1)), Ivl (i32 1) (i32 1), bs [true], bs [true], Ivl (i32 (-2)) (i32 (-1)), Ivl (i32 1) (i32 1), Ivl (i32 (-2)) (i32 (-1)), Ivl (i32 1) (i32 1))
  ; (Ivl (i32 (-2)) (i32 1), Ivl (i32 1) (i32 1), bs [false; true], bs [true], Ivl (i32 (-2)) (i32 0), Ivl (i32 1) (i32 1), Ivl (i32 (-2)) (i32 1), Ivl (i32 1) (i32 1))
  ; (Ivl (i32 (-2)) (i32 3), Ivl (i32 1) (i32 1), bs [false; true], bs [false; true], Ivl (i32 (-2)) (i32 0), Ivl (i32 1) (i32 1), Ivl (i32 (-2)) (i32 1), Ivl (i32 1) (i32 1))
  ; (Ivl (i32 1) (i32 3), Ivl (i32 1) (i32 1), bs [false], bs [false; true], Ivl (i32 0) (i32 0), Ivl (i32 0) (i32 0), Ivl (i32 1) (i32 1), Ivl (i32 1) (i32 1))
  ; (Ivl (i32 2) (i32 3), Ivl (i32 1) (i32 1), bs [false], bs [false], Ivl (i32 0) (i32 0), Ivl (i32 0) (i32 0), Ivl (i32 0) (i32 0), Ivl (i32 0) (i32 0))
  ; (Ivl (i32 1) (i32 1), Ivl (i32 2) (i32 3), bs [true], bs [true], Ivl (i32 1) (i32 1), Ivl (i32 2) (i32 3), Ivl (i32 1) (i32 1), Ivl (i32 2) (i32 3))
  ; (Ivl (i32 1) (i32 1), Ivl (i32 1) (i32 3), bs [false; true], bs [true], Ivl (i32 1) (i32 1), Ivl (i32 2) (i32 3), Ivl (i32 1) (i32 1), Ivl (i32 1) (i32 3))
  ; (Ivl (i32 1) (i32 1), Ivl (i32 (-2)) (i32 3), bs [false; true], bs [false; true], Ivl (i32 1) (i32 1), Ivl (i32 2) (i32 3), Ivl (i32 1) (i32 1), Ivl (i32 1) (i32 3))
  ; (Ivl (i32 1) (i32 1), Ivl (i32 (-2)) (i32 1), bs [false], bs [false; true], Ivl (i32 0) (i32 0), Ivl (i32 0) (i32 0), Ivl (i32 1) (i32 1), Ivl (i32 1) (i32 1))
  ; (Ivl (i32 1) (i32 1), Ivl (i32 (-2)) (i32 (-1)), bs [false], bs [false], Ivl (i32 0) (i32 0), Ivl (i32 0) (i32 0), Ivl (i32 0) (i32 0), Ivl (i32 0) (i32 0))
  ; (Ivl (i32 (-2)) (i32 (-1)), Ivl (i32 1) (i32 3), bs [true], bs [true], Ivl (i32 (-2)) (i32 (-1)), Ivl (i32 1) (i32 3), Ivl (i32 (-2)) (i32 (-1)), Ivl (i32 1) (i32 3))
  ; (Ivl (i32 (-2)) (i32 1), Ivl (i32 1) (i32 3), bs [false; true], bs [true], Ivl (i32 (-2)) (i32 1), Ivl (i32 1) (i32 3), Ivl (i32 (-2)) (i32 1), Ivl (i32 1) (i32 3))
  ; (Ivl (i32 (-2)) (i32 2), Ivl (i32 1) (i32 3), bs [false; true], bs [false; true], Ivl (i32 (-2)) (i32 2), Ivl (i32 1) (i32 3), Ivl (i32 (-2)) (i32 2), Ivl (i32 1) (i32 3))
  ; (Ivl (i32 (-2)) (i32 3), Ivl (i32 1) (i32 3), bs [false; true], bs [false; true], Ivl (i32 (-2)) (i32 2), Ivl (i32 1) (i32 3), Ivl (i32 (-2)) (i32 3), Ivl (i32 1) (i32 3))
  ; (Ivl (i32 (-2)) (i32 5), Ivl (i32 1) (i32 3), bs [false; true], bs [false; true], Ivl (i32 (-2)) (i32 2), Ivl (i32 1) (i32 3), Ivl (i32 (-2)) (i32 3), Ivl (i32 1) (i32 3))
  ; (Ivl (i32 1) (i32 2), Ivl (i32 1) (i32 3), bs [false; true], bs [false; true], Ivl (i32 1) (i32 2), Ivl (i32 2) (i32 3), Ivl (i32 1) (i32 2), Ivl (i32 1) (i32 3))
  ; (Ivl (i32 1) (i32 3), Ivl (i32 1) (i32 3), bs [false; true], bs [false; true], Ivl (i32 1) (i32 2), Ivl (i32 2) (i32 3), Ivl (i32 1) (i32 3), Ivl (i32 1) (i32 3))
  ; (Ivl (i32 1) (i32 5), Ivl (i32 1) (i32 3), bs [false; true], bs [false; true], Ivl (i32 1) (i32 2), Ivl (i32 2) (i32 3), Ivl (i32 1) (i32 3), Ivl (i32 1) (i32 3))
  ; (Ivl (i32 2) (i32 3), Ivl (i32 1) (i32 3), bs [false; true], bs [false; true], Ivl (i32 2) (i32 2), Ivl (i32 3) (i32 3), Ivl (i32 2) (i32 3), Ivl (i32 2) (i32 3))
  ; (Ivl (i32 2) (i32 5), Ivl (i32 1) (i32 3), bs [false; true], bs [false; true], Ivl (i32 2) (i32 2), Ivl (i32 3) (i32 3), Ivl (i32 2) (i32 3), Ivl (i32 2) (i32 3))
  ; (Ivl (i32 3) (i32 5), Ivl (i32 1) (i32 3), bs [false], bs [false; true], Ivl (i32 0) (i32 0), Ivl (i32 0) (i32 0), Ivl (i32 3) (i32 3), Ivl (i32 3) (i32 3))
  ; (Ivl (i32 4) (i32 5), Ivl (i32 1) (i32 3), bs [false], bs [false], Ivl (i32 0) (i32 0), Ivl (i32 0) (i32 0), Ivl (i32 0) (i32 0), Ivl (i32 0) (i32 0)) ].
Definition equal_rows_double : list (ivl float64 * ivl float64 * bset * ivl float64) :=
  [ (Ivl (f64 (-2) 0) (f64 (-2) 0), Ivl (f64 1 0) (f64 1 0), bs [false], Ivl (f64 0 0) (f64 0 0))
  ; (Ivl (f64 1 0) (f64 1 0), Ivl (f64 1 0) (f64 1 0), bs [true], Ivl (f64 1 0) (f64 1 0))
  ; (Ivl (f64 3 0) (f64 3 0), Ivl (f64 1 0) (f64 1 0), bs [false], Ivl (f64 0 0) (f64 0 0))
  ; (Ivl (f64 (-2) 0) (f64 (-1) 0), Ivl (f64 1 0) (f64 1 0), bs [false], Ivl (f64 0 0) (f64 0 0))
  ; (Ivl (f64 (-2) 0) (f64 1 0), Ivl (f64 1 0) (f64 1 0), bs [false; true], Ivl (f64 1 0) (f64 1 0))
  ; (Ivl (f64 (-2) 0) (f64 3 0), Ivl (f64 1 0) (f64 1 0), bs [false; true], Ivl (f64 1 0) (f64 1 0))
  ; (Ivl (f64 1 0) (f64 3 0), Ivl (f64 1 0) (f64 1 0), bs [false; true], Ivl (f64 1 0) (f64 1 0))
  ; (Ivl (f64 2 0) (f64 3 0), Ivl (f64 1 0) (f64 1 0), bs [false], Ivl (f64 0 0) (f64 0 0))
  ; (Ivl (f64 (-2) 0) (f64 (-1) 0), Ivl (f64 1 0) (f64 3 0), bs [false], Ivl (f64 0 0) (f64 0 0))
  ; (Ivl (f64 (-2) 0) (f64 1 0), Ivl (f64 1 0) (f64 3 0), bs [false; true], Ivl (f64 1 0) (f64 1 0))
  ; (Ivl (f64 (-2) 0) (f64 2 0), Ivl (f64 1 0) (f64 3 0), bs [false; true], Ivl (f64 1 0) (f64 2 0))
  ; (Ivl (f64 (-2) 0) (f64 3 0), Ivl (f64 1 0) (f64 3 0), bs [false; true], Ivl (f64 1 0) (f64 3 0))
  ; (Ivl (f64 (-2) 0) (f64 5 0), Ivl (f64 1 0) (f64 3 0), bs [false; true], Ivl (f64 1 0) (f64 3 0))
  ; (Ivl (f64 1 0) (f64 2 0), Ivl (f64 1 0) (f64 3 0), bs [false; true], Ivl (f64 1 0) (f64 2 0))
  ; (Ivl (f64 1 0) (f64 3 0), Ivl (f64 1 0) (f64 3 0), bs [false; true], Ivl (f64 1 0) (f64 3 0))
  ; (Ivl (f64 1 0) (f64 5 0), Ivl (f64 1 0) (f64 3 0), bs [false; true], Ivl (f64 1 0) (f64 3 0))
  ; (Ivl (f64 2 0) (f64 3 0), Ivl (f64 1 0) (f64 3 0), bs [false; true], Ivl (f64 2 0) (f64 3 0))
  ; (Ivl (f64 2 0) (f64 5 0), Ivl (f64 1 0) (f64 3 0), bs [false; true], Ivl (f64 2 0) (f64 3 0))
  ; (Ivl (f64 3 0) (f64 5 0), Ivl (f64 1 0) (f64 3 0), bs [false; true], Ivl (f64 3 0) (f64 3 0))
  ; (Ivl (f64 4 0) (f64 5 0), Ivl (f64 1 0) (f64 3 0), bs [false], Ivl (f64 0 0) (f64 0 0)) ].
Definition equal_rows_int : list (ivl int32 * ivl int32 * bset * ivl int32 * ivl int32 * ivl int32) :=
  [ (Ivl (i32 (-2)) (i32 (-2)), Ivl (i32 1) (i32 1), bs [false], Ivl (i32 0) (i32 0), Ivl (i32 (-2)) (i32 (-2)), Ivl (i32 1) (i32 1))
  ; (Ivl (i32 1) (i32 1), Ivl (i32 1) (i32 1), bs [true], Ivl (i32 1) (i32 1), Ivl (i32 0) (i32 0), Ivl (i32 0) (i32 0))
  ; (Ivl (i32 3) (i32 3), Ivl (i32 1) (i32 1), bs [false], Ivl (i32 0) (i32 0), Ivl (i32 3) (i32 3), Ivl (i32 1) (i32 1))
  ; (Ivl (i32 (-2)) (i32 (-1)), Ivl (i32 1) (i32 1), bs [false], Ivl (i32 0) (i32 0), Ivl (i32 (-2)) (i32 (-1)), Ivl (i32 1) (i32 1))
  ; (Ivl (i32 (-2)) (i32 1), Ivl (i32 1) (i32 1), bs [false; true], Ivl (i32 1) (i32 1), Ivl (i32 (-2)) (i32 0), Ivl (i32 1) (i32 1))
  ; (Ivl (i32 (-2)) (i32 3), Ivl (i32 1) (i32 1), bs [false; true], Ivl (i32 1) (i32 1), Ivl (i32 (-2)) (i32 3), Ivl (i32 1) (i32 1))
  ; (Ivl (i32 1) (i32 3), Ivl (i32 1) (i32 1), bs [false; true], Ivl (i32 1) (i32 1), Ivl (i32 2) (i32 3), Ivl (i32 1) (i32 1))
  ; (Ivl (i32 2) (i32 3), Ivl (i32 1) (i32 1), bs [false], Ivl (i32 0) (i32 0), Ivl (i32 2) (i32 3), Ivl (i32 1) (i32 1))
  ; (Ivl (i32 1) (i32 1), Ivl (i32 (-2)) (i32 (-1)), bs [false], Ivl (i32 0) (i32 0), Ivl (i32 1) (i32 1), Ivl (i32 (-2)) (i32 (-1)))
  ; (Ivl (i32 1) (i32 1), Ivl (i32 (-2)) (i32 1), bs [false; true], Ivl (i32 1) (i32 1), Ivl (i32 1) (i32 1), Ivl (i32 (-2)) (i32 0))
  ; (Ivl (i32 1) (i32 1), Ivl (i32 (-2)) (i32 3), bs [false; true], Ivl (i32 1) (i32 1), Ivl (i32 1) (i32 1), Ivl (i32 (-2)) (i32 3))
  ; (Ivl (i32 1) (i32 1), Ivl (i32 1) (i32 3), bs [false; true], Ivl (i32 1) (i32 1), Ivl (i32 1) (i32 1), Ivl (i32 2) (i32 3))
  ; (Ivl (i32 1) (i32 1), Ivl (i32 2) (i32 3), bs [false], Ivl (i32 0) (i32 0), Ivl (i32 1) (i32 1), Ivl (i32 2) (i32 3))
  ; (Ivl (i32 (-2)) (i32 (-1)), Ivl (i32 1) (i32 3), bs [false], Ivl (i32 0) (i32 0), Ivl (i32 (-2)) (i32 (-1)), Ivl (i32 1) (i32 3))
  ; (Ivl (i32 (-2)) (i32 1), Ivl (i32 1) (i32 3), bs [false; true], Ivl (i32 1) (i32 1), Ivl (i32 (-2)) (i32 1), Ivl (i32 1) (i32 3))
  ; (Ivl (i32 (-2)) (i32 2), Ivl (i32 1) (i32 3), bs [false; true], Ivl (i32 1) (i32 2), Ivl (i32 (-2)) (i32 2), Ivl (i32 1) (i32 3))
  ; (Ivl (i32 (-2)) (i32 3), Ivl (i32 1) (i32 3), bs [false; true], Ivl (i32 1) (i32 3), Ivl (i32 (-2)) (i32 3), Ivl (i32 1) (i32 3))
  ; (Ivl (i32 (-2)) (i32 5), Ivl (i32 1) (i32 3), bs [false; true], Ivl (i32 1) (i32 3), Ivl (i32 (-2)) (i32 5), Ivl (i32 1) (i32 3))
  ; (Ivl (i32 1) (i32 2), Ivl (i32 1) (i32 3), bs [false; true], Ivl (i32 1) (i32 2), Ivl (i32 1) (i32 2), Ivl (i32 1) (i32 3))
  ; (Ivl (i32 1) (i32 3), Ivl (i32 1) (i32 3), bs [false; true], Ivl (i32 1) (i32 3), Ivl (i32 1) (i32 3), Ivl (i32 1) (i32 3))
  ; (Ivl (i32 1) (i32 5), Ivl (i32 1) (i32 3), bs [false; true], Ivl (i32 1) (i32 3), Ivl (i32 1) (i32 5), Ivl (i32 1) (i32 3))
  ; (Ivl (i32 2) (i32 3), Ivl (i32 1) (i32 3), bs [false; true], Ivl (i32 2) (i32 3), Ivl (i32 2) (i32 3), Ivl (i32 1) (i32 3))
  ; (Ivl (i32 2) (i32 5), Ivl (i32 1) (i32 3), bs [false; true], Ivl (i32 2) (i32 3), Ivl (i32 2) (i32 5), Ivl (i32 1) (i32 3))
  ; (Ivl (i32 3) (i32 5), Ivl (i32 1) (i32 3), bs [false; true], Ivl (i32 3) (i32 3), Ivl (i32 3) (i32 5), Ivl (i32 1) (i32 3))
  ; (Ivl (i32 4) (i32 5), Ivl (i32 1) (i32 3), bs [false], Ivl (i32 0) (i32 0), Ivl (i32 4) (i32 5), Ivl (i32 1) (i32 3)) ].
Definition and_rows_double : list (ivl float64 * ivl float64) :=
  [ (Ivl (f64 1 0) (f64 1 0), Ivl (f64 1 0) (f64 1 0))
  ; (Ivl (f64 1 0) (f64 1 0), Ivl (f64 4 0) (f64 4 0))
  ; (Ivl (f64 1 0) (f64 1 0), Ivl (f64 4 0) (f64 6 0))
  ; (Ivl (f64 4 0) (f64 4 0), Ivl (f64 4 0) (f64 6 0))
  ; (Ivl (f64 1 0) (f64 3 0), Ivl (f64 4 0) (f64 4 0))
  ; (Ivl (f64 1 0) (f64 3 0), Ivl (f64 4 0) (f64 6 0))
  ; (Ivl (f64 1 0) (f64 4 0), Ivl (f64 4 0) (f64 4 0))
  ; (Ivl (f64 1 0) (f64 4 0), Ivl (f64 4 0) (f64 6 0)) ].
Definition and_rows_int : list (ivl int32 * ivl int32) :=
  [ (Ivl (i32 1) (i32 1), Ivl (i32 1) (i32 1))
  ; (Ivl (i32 1) (i32 1), Ivl (i32 4) (i32 4))
  ; (Ivl (i32 1) (i32 1), Ivl (i32 4) (i32 6))
  ; (Ivl (i32 4) (i32 4), Ivl (i32 4) (i32 6))
  ; (Ivl (i32 1) (i32 3), Ivl (i32 4) (i32 4))
  ; (Ivl (i32 1) (i32 3), Ivl (i32 4) (i32 6))
  ; (Ivl (i32 1) (i32 4), Ivl (i32 4) (i32 4))
  ; (Ivl (i32 1) (i32 4), Ivl (i32 4) (i32 6)) ].
Definition minmax_rows : list (ivl float64 * ivl float64 * ivl float64 * ivl float64) :=
  [ (Ivl (f64 0 0) (f64 2 0), Ivl (f64 3 0) (f64 3 0), Ivl (f64 0 0) (f64 2 0), Ivl (f64 3 0) (f64 3 0))
  ; (Ivl (f64 0 0) (f64 2 0), Ivl (f64 1 0) (f64 3 0), Ivl (f64 0 0) (f64 2 0), Ivl (f64 1 0) (f64 3 0))
  ; (Ivl (f64 0 0) (f64 3 0), Ivl (f64 1 0) (f64 2 0), Ivl (f64 0 0) (f64 2 0), Ivl (f64 1 0) (f64 3 0)) ].

Definition min_of {O : ordty} (v : O) (l : list O) : O := fold_left omin l v.
Definition max_of {O : ordty} (v : O) (l : list O) : O := fold_left omax l v.
Definition is_nan {O : ordty} (v : O) : bool := negb (o_eq v v).
(** [z.lower() == l], [z.upper() == u]. *)
Definition bounds {O : ordty} (z : outcome (ivl O)) (l u : outcome O) : bool :=
  check (Z <- z ;; a <- lower true Z ;; b <- upper true Z ;; l <- l ;; u <- u ;; Ret (o_eq a l && o_eq b u)).
Definition holds (p : bset -> bool) (o : outcome bset) : bool := check (s <- o ;; Ret (p s)).
(** [possibly(z == v)] *)
Definition possibly_is {O : ordty} (z : outcome (ivl O)) (v : outcome O) : bool :=
  holds possibly (Z <- z ;; v <- v ;; rel_eq true (Iv Z) (Sc v)).
Definition matches_o {O : ordty} (o : outcome (ivl O)) (X : ivl O) : bool := check (Z <- o ;; Ret (matches_ivl Z X)).

(** test-interval.cpp 28-33, 1306-1311 *)
Definition test_value (N : num) (one two : N) : bool :=
  check (X <- mk one one ;; v <- value X ;; Ret (o_eq v one)) && throws_fail_fast (value (ivl_default (N := N)))
  && check (X <- mk one two ;; Ret (throws_fail_fast (value X))).
Example test_value_double : test_value float64 (f64 1 0) (f64 2 0) = true. Proof. vm_compute. reflexivity. Qed.
Example test_value_int : test_value int32 (i32 1) (i32 2) = true. Proof. vm_compute. reflexivity. Qed.

(** test-interval.cpp 34-81, 1312-1345 *)
Definition test_relational {O : ordty} (r : O * O * O * O * O) : bool :=
  let '(below, a, xin, b, above) := r in
  match mk a b with
  | Ret X =>
      let x := Iv X in
      (is_nan below || (holds always (rel_lt true (Sc below) x) && holds (fun s => negb (possibly s)) (rel_geq true (Sc below) x)))
      && holds always (rel_leq true (Sc a) x) && holds (fun s => negb (possibly s)) (rel_gt true (Sc a) x)
      && holds possibly (rel_leq true (Sc xin) x) && holds (fun s => negb (always s)) (rel_gt true (Sc xin) x)
      && holds possibly (rel_geq true (Sc xin) x) && holds (fun s => negb (always s)) (rel_lt true (Sc xin) x)
      && holds always (rel_geq true (Sc b) x) && holds (fun s => negb (possibly s)) (rel_lt true (Sc b) x)
      && (is_nan above || (holds always (rel_gt true (Sc above) x) && holds (fun s => negb (possibly s)) (rel_leq true (Sc above) x)))
  | _ => false
  end.
Example test_relational_double : all relational_rows_double test_relational = true. Proof. vm_compute. reflexivity. Qed.
Example test_relational_int : all rows_int (test_relational (O := int32)) = true. Proof. vm_compute. reflexivity. Qed.

(** test-interval.cpp 97-189, 1346-1383: negation, square, sgn; for double also isinf, isfinite and sqrt. *)
Definition test_unary {N : num} (r : N * N * N * N * N) : bool :=
  let '(_, a, _, b, _) := r in
  match mk a b with
  | Ret X =>
      let m2 (f : N -> outcome N) (g : N -> N -> N) := u <- f a ;; v <- f b ;; Ret (g u v) in
      let sign_agrees s (o : outcome bset) :=
        check (t <- isgn true X ;; e <- set_eq true t (sset_of s) ;; c <- o ;; Ret (Bool.eqb (possibly e) (possibly c))) in
      bounds (ineg true X) (m2 n_neg omin) (m2 n_neg omax)
      && bounds (isquare true X) (if o_le a n_zero && o_le n_zero b then Ret n_zero else m2 nsquare omin) (m2 nsquare omax)
      && sign_agrees positive_sign (rel_gt true (Iv X) (Sc n_zero)) && sign_agrees zero_sign (rel_eq true (Iv X) (Sc n_zero))
      && sign_agrees negative_sign (rel_lt true (Iv X) (Sc n_zero))
  | _ => false
  end.
Definition test_unary_float (r : float64 * float64 * float64 * float64 * float64) : bool :=
  let '(_, a, _, b, _) := r in
  match mk (O := float64) a b with
  | Ret X =>
      let sq (v : float64) : float64 := @Bsqrt 53 1024 prec_gt_0_53 prec_lt_emax_64 mode_NE v in
      let inf := inf_b (N := float64) in
      (negb (o_le (n_zero : float64) a) || bounds (O := float64) (isqrt (N := float64) (float_math 53 1024 prec_gt_0_53 prec_lt_emax_64
          (Build_libm float64 sq sq sq (fun _ => sq) sq sq sq sq sq sq (fun _ => sq) (n_one : float64))) true X) (Ret (omin (sq a) (sq b))) (Ret (omax (sq a) (sq b))))
      && holds (fun s => Bool.eqb (always s) (inf (lo X) && o_eq (o := float64) (lo X) (hi X))) (iisinf (N := float64) true X)
      && holds (fun s => Bool.eqb (possibly s) (inf (lo X) || inf (hi X))) (iisinf (N := float64) true X)
      && holds (fun s => Bool.eqb (always s) (negb (inf (lo X)) && negb (inf (hi X)))) (iisfinite (N := float64) true X)
      && holds (fun s => Bool.eqb (possibly s) (negb (o_eq (o := float64) (lo X) (hi X)) || negb (inf (lo X)))) (iisfinite (N := float64) true X)
  | _ => false
  end.
Example test_unary_double : all rows_double (fun r => test_unary (N := float64) r && test_unary_float r) = true. Proof. vm_compute. reflexivity. Qed.
Example test_unary_int : all rows_int (test_unary (N := int32)) = true. Proof. vm_compute. reflexivity. Qed.

(** test-interval.cpp 190-396, 1384-1494: sums, differences, products and quotients for all pairs of rows. *)
Section Binary.
  Context {N : num} (r s : N * N * N * N * N).
  Notation a := (let '(_, a, _, _, _) := r in a). Notation xin := (let '(_, _, x, _, _) := r in x). Notation b := (let '(_, _, _, b, _) := r in b).
  Notation c := (let '(_, c, _, _, _) := s in c). Notation yin := (let '(_, _, y, _, _) := s in y). Notation d := (let '(_, _, _, d, _) := s in d).
  Notation X := (Ivl a b). Notation Y := (Ivl c d).
  Definition extremes4 (f : N -> N -> outcome N) (g : N -> list N -> N) : outcome N :=
    v1 <- f a c ;; v2 <- f a d ;; v3 <- f b c ;; v4 <- f b d ;; Ret (g v1 [v2; v3; v4]).
  Definition extremes2 (f : outcome N) (h : outcome N) (g : N -> list N -> N) : outcome N := v1 <- f ;; v2 <- h ;; Ret (g v1 [v2]).
  Definition hull_of4 (z : outcome (ivl N)) f : bool := bounds z (extremes4 f min_of) (extremes4 f max_of).
  Definition hull_of2 (z : outcome (ivl N)) f h : bool := bounds z (extremes2 f h min_of) (extremes2 f h max_of).
  Definition inner4 (z : outcome (ivl N)) (f : N -> N -> outcome N) : bool :=
    possibly_is z (f a yin) && possibly_is z (f xin c) && possibly_is z (f xin yin) && possibly_is z (f b yin) && possibly_is z (f xin d).
  Definition nan_possible (z : outcome (ivl N)) : bool := holds possibly (Z <- z ;; iisnan true Z).
  Definition eq_ (Z : ivl N) (v : N) : outcome bset := rel_eq true (Iv Z) (Sc v).
  Definition and_ (o p : outcome bset) : outcome bset := x <- o ;; y <- p ;; Ret (band x y).
  Definition or_ (o p : outcome bset) : outcome bset := x <- o ;; y <- p ;; Ret (bor x y).
  Definition sc (v : bool) : outcome bset := Ret (bset_of v).
  Definition infinite (z : outcome (ivl N)) : bool := bounds z (Ret n_bot) (Ret n_top).
  Definition test_ordered : bool := no_throw (mk a b) && no_throw (mk c d).
  Definition test_add : bool :=
    let z := iadd true (Iv X) (Iv Y) in
    if check (i <- or_ (and_ (eq_ X n_top) (eq_ Y n_bot)) (and_ (eq_ X n_bot) (eq_ Y n_top)) ;; Ret (n_float N && possibly i)) then nan_possible z
    else hull_of4 z n_add.
  Definition test_sub : bool :=
    let z := isub true (Iv X) (Iv Y) in
    if check (i <- or_ (and_ (eq_ X n_bot) (eq_ Y n_bot)) (and_ (eq_ X n_top) (eq_ Y n_top)) ;; Ret (n_float N && possibly i)) then nan_possible z
    else hull_of4 z n_sub.
  Definition test_mul : bool :=
    (let z := imul true (Iv X) (Iv Y) in
     if check (i <- or_ (and_ (iisinf true X) (eq_ Y n_zero)) (and_ (iisinf true Y) (eq_ X n_zero)) ;; Ret (n_float N && possibly i)) then nan_possible z
     else hull_of4 z n_mul && inner4 z n_mul)
    && (let z := imul true (Iv X) (Sc c) in
        if check (i <- or_ (and_ (iisinf true X) (sc (o_eq c n_zero))) (and_ (sc (inf_b c)) (eq_ X n_zero)) ;; Ret (n_float N && possibly i)) then nan_possible z
        else hull_of2 z (n_mul a c) (n_mul b c) && possibly_is z (n_mul a c) && possibly_is z (n_mul xin c) && possibly_is z (n_mul b c)).
  Definition test_div : bool :=
    (let z := idiv true (Iv X) (Iv Y) in
     if check (i <- or_ (and_ (eq_ X n_zero) (eq_ Y n_zero)) (and_ (iisinf true X) (iisinf true Y)) ;; Ret (possibly i)) then nan_possible z
     else if check (i <- rel_neq true (Iv X) (Sc n_zero) ;; Ret (always i && encloses Y n_zero)) then infinite z
     else hull_of4 z n_div && inner4 z n_div)
    && (let z := idiv true (Iv X) (Sc c) in
        if check (i <- or_ (and_ (eq_ X n_zero) (sc (o_eq c n_zero))) (and_ (iisinf true X) (sc (inf_b c))) ;; Ret (possibly i)) then nan_possible z
        else hull_of2 z (n_div a c) (n_div b c) && possibly_is z (n_div a c) && possibly_is z (n_div xin c) && possibly_is z (n_div b c))
    && (let z := idiv true (Sc a) (Iv Y) in
        if check (i <- or_ (and_ (sc (o_eq a n_zero)) (eq_ Y n_zero)) (and_ (sc (inf_b a)) (iisinf true Y)) ;; Ret (possibly i)) then nan_possible z
        else if negb (o_eq a n_zero) && encloses Y n_zero then infinite z
        else hull_of2 z (n_div a c) (n_div a d) && possibly_is z (n_div a c) && possibly_is z (n_div a yin) && possibly_is z (n_div a d)).
  Definition test_div_int : bool :=
    let nonzero := check (i <- rel_neq true (Iv Y) (Sc n_zero) ;; Ret (always i)) in
    (negb nonzero || (let z := idiv true (Iv X) (Iv Y) in hull_of4 z n_div && inner4 z n_div))
    && (o_eq c n_zero || (let z := idiv true (Iv X) (Sc c) in
        hull_of2 z (n_div a c) (n_div b c) && possibly_is z (n_div a c) && possibly_is z (n_div xin c) && possibly_is z (n_div b c)))
    && (negb nonzero || (let z := idiv true (Sc a) (Iv Y) in
        hull_of2 z (n_div a c) (n_div a d) && possibly_is z (n_div a c) && possibly_is z (n_div a yin) && possibly_is z (n_div a d))).
End Binary.
Definition pairs {A} (l : list A) (f : A -> A -> bool) : bool := all l (fun r => all l (f r)).
Example test_add_double : pairs rows_double (fun r s => test_ordered (N := float64) r s && test_add (N := float64) r s) = true. Proof. vm_compute. reflexivity. Qed.
Example test_sub_double : pairs rows_double (test_sub (N := float64)) = true. Proof. vm_compute. reflexivity. Qed.
Example test_mul_double : pairs rows_double (test_mul (N := float64)) = true. Proof. vm_compute. reflexivity. Qed.
Example test_div_double : pairs rows_double (test_div (N := float64)) = true. Proof. vm_compute. reflexivity. Qed.
Example test_add_int : pairs rows_int (fun r s => test_ordered (N := int32) r s && test_add (N := int32) r s) = true. Proof. vm_compute. reflexivity. Qed.
Example test_sub_int : pairs rows_int (test_sub (N := int32)) = true. Proof. vm_compute. reflexivity. Qed.
Example test_mul_int : pairs rows_int (test_mul (N := int32)) = true. Proof. vm_compute. reflexivity. Qed.
Example test_div_int_ : pairs rows_int (test_div_int (N := int32)) = true. Proof. vm_compute. reflexivity. Qed.

(** test-interval.cpp 689-708, 1495-1514; [n k] is the literal [k]. *)
Definition test_if_else {N : num} (n : Z -> N) : bool :=
  let i l u := Ivl (n l) (n u) in let F := bs [false] in let U := bs [false; true] in let T := bs [true] in
  o_eq (if_else_b true (n 1%Z) (n 2%Z)) (n 1%Z) && o_eq (if_else_b false (n 1%Z) (n 2%Z)) (n 2%Z)
  && matches_o (iif_else_vv F (n 1%Z) (n 2%Z)) (i 2%Z 2%Z) && matches_o (iif_else_vv U (n 1%Z) (n 2%Z)) (i 1%Z 2%Z) && matches_o (iif_else_vv T (n 1%Z) (n 2%Z)) (i 1%Z 1%Z)
  && matches_o (iif_else_sv F (i 1%Z 2%Z) (n 3%Z)) (i 3%Z 3%Z) && matches_o (iif_else_sv U (i 1%Z 2%Z) (n 3%Z)) (i 1%Z 3%Z) && matches_o (iif_else_sv T (i 1%Z 2%Z) (n 3%Z)) (i 1%Z 2%Z)
  && matches_o (iif_else_vs F (n 1%Z) (i 3%Z 4%Z)) (i 3%Z 4%Z) && matches_o (iif_else_vs U (n 1%Z) (i 3%Z 4%Z)) (i 1%Z 4%Z) && matches_o (iif_else_vs T (n 1%Z) (i 3%Z 4%Z)) (i 1%Z 1%Z)
  && matches_o (iif_else F (i 1%Z 2%Z) (i 3%Z 4%Z)) (i 3%Z 4%Z) && matches_o (iif_else U (i 1%Z 2%Z) (i 3%Z 4%Z)) (i 1%Z 4%Z) && matches_o (iif_else T (i 1%Z 2%Z) (i 3%Z 4%Z)) (i 1%Z 2%Z).
Definition lit64 (z : Z) : float64 := f64 z 0.
Example test_if_else_double : test_if_else (N := float64) lit64 = true. Proof. vm_compute. reflexivity. Qed.
Example test_if_else_int : test_if_else (N := int32) i32 = true. Proof. vm_compute. reflexivity. Qed.

(** test-interval.cpp 713-731, 1519-1538 *)
Definition test_constrain_scalar {O : ordty} (ls xs : list O) (h : O) : bool := all ls (fun l => all xs (fun x =>
  let c := andb (o_le l x) (o_le x h) in
  if possibly_b c then check (z <- scalar_constrain x c ;; Ret (o_eq z x))
  else check (z <- scalar_constrain x (negb c) ;; Ret (o_eq z x)) && throws_fail_fast (scalar_constrain x c))).
Example test_constrain_scalar_double :
  test_constrain_scalar (O := float64) ((n_bot : float64) :: map lit64 [-1; 0; 1; 2]%Z) (map lit64 [-2; -1; 0; 1; 2; 3]%Z) (lit64 2) = true.
Proof. vm_compute. reflexivity. Qed.
Example test_constrain_scalar_int : test_constrain_scalar (O := int32) (map i32 [-1; 0; 1; 2]%Z) (map i32 [-2; -1; 0; 1; 2; 3]%Z) (i32 2) = true.
Proof. vm_compute. reflexivity. Qed.

(** test-interval.cpp 735-1049, 1541-1950.  The variables x, y (or a, b) of the test have the addresses 0, 1, 2. *)
Section Constrain.
  Context {O : ordty}.
  Notation ivl := (ivl O).
  (** [CHECK(cc.matches(c))], and [constrain(x, cc)] for each variable: the expected interval if [cc.contains(true)], else an exception
      (not tested if [must] is false). *)
  Definition test_cond (cc : outcome (cond O)) (c : bset) (vars : list (nat * ivl * ivl)) (must : bool) : bool :=
    check (k <- cc ;; Ret (set_matches_set (cset k) c
      && all vars (fun v => let '(i, X, E) := v in
           if bcontains (cset k) true then matches_o (constrain true i X k) E else negb must || throws_fail_fast (constrain true i X k)))).
  Definition test_less (X Y : ivl) (ltc leqc : bset) (xltc yltc xleqc yleqc : ivl) : bool :=
    let x := OpId 0 X in let y := OpId 1 Y in
    let le := [(0%nat, X, xleqc); (1%nat, Y, yleqc)] in let lt := [(0%nat, X, xltc); (1%nat, Y, yltc)] in
    test_cond (c_le true x y) leqc le true && test_cond (c_ge true y x) leqc le true
    && test_cond (c_lt true x y) ltc lt (negb (bcontains leqc true)) && test_cond (c_gt true y x) ltc lt (negb (bcontains leqc true)).
  Definition not_ (o : outcome (cond O)) : outcome (cond O) := c <- o ;; c_not true c.
  Definition bnot_ (c : bset) : bset := match bnot true c with Ret s => s | _ => set_empty end.
  Definition test_equal (X Y : ivl) (c : bset) (xyc : ivl) : bool :=
    let x := OpId 0 X in let y := OpId 1 Y in let E := [(0%nat, X, xyc); (1%nat, Y, xyc)] in
    test_cond (c_eq true x y) c E true && holds (fun s => set_matches_set s (bnot_ c)) (k <- c_ne true x y ;; Ret (cset k))
    && test_cond (not_ (c_ne true x y)) c E true.
  Definition and_c (l r : outcome (cond O)) : outcome (cond O) := a <- l ;; b <- r ;; Ret (c_and a b).
  Definition or_c (l r : outcome (cond O)) : outcome (cond O) := a <- l ;; b <- r ;; Ret (c_or a b).
  Definition test_and (xlo xhi : O) (A B : ivl) : bool :=
    if o_le xlo xhi then
      let c := (if o_le (lo A) xhi && o_le xlo (hi B) then bassign set_empty true else set_empty) in
      let c := (if o_lt xlo (hi A) || o_lt (lo B) xhi then bassign c false else c) in
      let X := Ivl xlo xhi in let x := OpId 0 X in
      let E := [(0%nat, X, Ivl (omax xlo (lo A)) (omin xhi (hi B)))] in
      all [(OpId 1 A, OpId 2 B); (OpVal (Iv A), OpVal (Iv B))] (fun p => let '(a, b) := p in
        test_cond (and_c (c_ge true x a) (c_le true x b)) c E true && test_cond (and_c (c_le true a x) (c_ge true b x)) c E true
        && holds (fun s => set_matches_set s (bnot_ c)) (k <- or_c (c_lt true x a) (c_gt true x b) ;; Ret (cset k))
        && test_cond (not_ (or_c (c_lt true x a) (c_gt true x b))) c E true
        && holds (fun s => set_matches_set s (bnot_ c)) (k <- or_c (c_gt true a x) (c_lt true b x) ;; Ret (cset k))
        && test_cond (not_ (or_c (c_gt true a x) (c_lt true b x))) c E true)
    else true.
  Definition test_or (xlo xhi : O) (A B : ivl) : bool :=
    if o_le xlo xhi then
      let c := (if o_le (omin (lo A) (lo B)) xhi then bassign set_empty true else set_empty) in
      let c := (if o_lt xlo (omin (hi A) (hi B)) then bassign c false else c) in
      let X := Ivl xlo xhi in let x := OpId 0 X in
      test_cond (or_c (c_ge true x (OpId 1 A)) (c_ge true x (OpId 2 B))) c [(0%nat, X, Ivl (omax xlo (omin (lo A) (lo B))) xhi)] true
    else true.
End Constrain.
Example test_less_double : all less_rows_double (fun r => let '(x, y, ltc, leqc, xc, yc) := r in test_less (O := float64) x y ltc leqc xc yc xc yc) = true.
Proof. vm_compute. reflexivity. Qed.
Example test_less_int : all less_rows_int (fun r => let '(x, y, ltc, leqc, xltc, yltc, xleqc, yleqc) := r in
  test_less (O := int32) x y ltc leqc xltc yltc xleqc yleqc) = true.
Proof. vm_compute. reflexivity. Qed.
Example test_equal_double : all equal_rows_double (fun r => let '(x, y, c, xyc) := r in test_equal (O := float64) x y c xyc) = true.
Proof. vm_compute. reflexivity. Qed.
Example test_equal_int : all equal_rows_int (fun r => let '(x, y, c, xyc, xneqc, yneqc) := r in
  test_cond (O := int32) (c_eq true (OpId 0 x) (OpId 1 y)) c [(0%nat, x, xyc); (1%nat, y, xyc)] true
  && test_cond (O := int32) (c_ne true (OpId 0 x) (OpId 1 y)) (bnot_ c) [(0%nat, x, xneqc); (1%nat, y, yneqc)] true) = true.
Proof. vm_compute. reflexivity. Qed.
Definition xlos := [-2; 1; 2; 3; 4; 5; 6; 7]%Z.
Definition xhis := [-1; 1; 2; 3; 4; 5; 6; 7; 8]%Z.
Example test_and_double : all xlos (fun l => all xhis (fun h => all and_rows_double (fun r => test_and (O := float64) (lit64 l) (lit64 h) (fst r) (snd r)))) = true.
Proof. vm_compute. reflexivity. Qed.
Example test_and_int : all xlos (fun l => all xhis (fun h => all and_rows_int (fun r => test_and (O := int32) (i32 l) (i32 h) (fst r) (snd r)))) = true.
Proof. vm_compute. reflexivity. Qed.
Definition or_as := [(1, 1); (1, 2); (1, 4); (2, 4); (4, 4)]%Z.
Definition or_bs := [(2, 2); (2, 3); (4, 6)]%Z.
Definition test_ors {O : ordty} (n : Z -> O) : bool :=
  all xlos (fun l => all xhis (fun h => all or_as (fun a => all or_bs (fun b =>
    test_or (n l) (n h) (Ivl (n (fst a)) (n (snd a))) (Ivl (n (fst b)) (n (snd b))))))).
Example test_or_double : test_ors (O := float64) lit64 = true. Proof. vm_compute. reflexivity. Qed.
Example test_or_int : test_ors (O := int32) i32 = true. Proof. vm_compute. reflexivity. Qed.

(** test-interval.cpp 1051-1063, 1940-1951: constraint not considered. *)
Definition test_not_considered {N : num} (n : Z -> N) : bool :=
  let X := ivl_of (n 1%Z) in let Y := ivl_of (n 2%Z) in let a := OpId 2 (ivl_of (n 0%Z)) in
  no_throw (c <- c_ge true (OpId 0 X) a ;; constrain true 0 X c)
  && check (X1 <- iadd true (Iv X) (Sc (n 1%Z)) ;; c <- c_ge true (OpVal (Iv X1)) a ;; Ret (throws_fail_fast (constrain true 0 X c)))
  && check (c <- c_ge true (OpId 1 Y) a ;; Ret (throws_fail_fast (constrain true 0 X c))).
Example test_not_considered_double : test_not_considered (N := float64) lit64 = true. Proof. vm_compute. reflexivity. Qed.
Example test_not_considered_int : test_not_considered (N := int32) i32 = true. Proof. vm_compute. reflexivity. Qed.
(** test-interval.cpp 1064-1085: constraint or part of it not satisfiable. *)
Example test_not_satisfiable :
  let X : ivl float64 := ivl_of (lit64 1) in let Y : ivl float64 := ivl_of (lit64 2) in let A : ivl float64 := ivl_of (lit64 3) in
  let x := OpId 0 X in let y := OpId 1 Y in let a := OpId 2 A in
  check (c <- c_eq true x a ;; Ret (throws_fail_fast (constrain true 0 X c))) && check (c <- c_ge true x a ;; Ret (throws_fail_fast (constrain true 0 X c)))
  && check (c <- c_lt true a x ;; Ret (throws_fail_fast (constrain true 0 X c)))
  && no_throw (c <- or_c (c_eq true x a) (c_lt true y a) ;; constrain true 0 X c)
  && check (c <- or_c (c_eq true x a) (c_eq true y a) ;; Ret (throws_fail_fast (constrain true 0 X c))) = true.
Proof. vm_compute. reflexivity. Qed.
(** test-interval.cpp 1086-1119: erroneous nested constraint; [ac] has the address 1. *)
Example test_erroneous_nested : all [(1, 4); (1, 5); (4, 5)]%Z (fun p =>
  let A : ivl float64 := Ivl (lit64 (fst p)) (lit64 (snd p)) in
  check (c <- c_le true (OpId 0 A) (OpVal (Sc (lit64 3))) ;; let c := c_or c (CBool true) in
         AC <- constrain true 0 A c ;;
         good <- c_gt true (OpId 1 AC) (OpVal (Sc (lit64 4))) ;; bad <- c_gt true (OpId 0 A) (OpVal (Sc (lit64 4))) ;;
         Ret (cpossible c && (negb (cpossible good) || no_throw (constrain true 1 AC good)) && (negb (cpossible bad) || throws_fail_fast (constrain true 1 AC bad))))) = true.
Proof. vm_compute. reflexivity. Qed.

(** test-interval.cpp 1122-1212, 2000-2087: the two versions of max; the arguments have the addresses 0, 1. *)
Section Max.
  Context {N : num} (X Y : ivl N).
  Definition maxG0 : outcome (ivl N) :=
    c <- c_ge true (OpId 0 X) (OpId 1 Y) ;;
    r <- (if possibly (cset c) then free_assign_partial ivl_default X else Ret ivl_default) ;;
    c <- c_ge true (OpId 0 X) (OpId 1 Y) ;;
    if possibly_not (cset c) then free_assign_partial r Y else Ret r.
  Definition maxG : outcome (ivl N) :=
    c <- c_ge true (OpId 0 X) (OpId 1 Y) ;;
    r <- (if possibly (cset c) then Z <- constrain true 0 X c ;; free_assign_partial ivl_default Z else Ret ivl_default) ;;
    if possibly_not (cset c) then k <- c_not true c ;; Z <- constrain true 1 Y k ;; free_assign_partial r Z else Ret r.
End Max.
Definition test_max {N : num} (n : Z -> N) : bool :=
  let i l u := Ivl (n l) (n u) in
  (matches_o (maxG0 (i 0 2) (i 3 4)) (i 3 4) && matches_o (maxG0 (i 3 4) (i 0 2)) (i 3 4) && matches_o (maxG0 (i 0 2) (i 1 4)) (i 0 4)
  && matches_o (maxG0 (i 0 4) (i 1 3)) (i 0 4)
  && matches_o (maxG (i 0 2) (i 3 4)) (i 3 4) && matches_o (maxG (i 3 4) (i 0 2)) (i 3 4) && matches_o (maxG (i 0 2) (i 1 4)) (i 1 4)
  && matches_o (maxG (i 0 4) (i 1 3)) (i 1 4))%Z.
Example test_max_double : test_max (N := float64) lit64 = true. Proof. vm_compute. reflexivity. Qed.
Example test_max_int : test_max (N := int32) i32 = true. Proof. vm_compute. reflexivity. Qed.

(** test-interval.cpp 1956-1998: min and max. *)
Example test_min_max : all minmax_rows (fun r => let '(A, B, mn, mx) := r in
  matches_o (imin true (Iv A) (Iv B)) mn && matches_o (imax true (Iv A) (Iv B)) mx
  && check (c <- and_c (c_ge true (OpId 0 A) (OpVal (Sc (lit64 1)))) (c_ge true (OpId 1 B) (OpVal (Sc (lit64 1)))) ;;
            if cpossible c then
              AC <- constrain true 0 A c ;; BC <- constrain true 1 B c ;; _t <- imin true (Iv A) (Iv BC) ;; _t <- imin true (Iv AC) (Iv B) ;;
              E <- imax true (Sc (lit64 1)) (Iv mn) ;; Ret (matches_o (imin true (Iv AC) (Iv BC)) E)
            else Ret true)) = true.
Proof. vm_compute. reflexivity. Qed.
