(** Model of /repo/tokamak_neutron_source/transport.py:43-51 (FractionalFuelComposition.__post_init__)
    in IEEE binary64, the arithmetic Python floats really use. *)
From Coq Require Import ZArith Bool.
From Flocq Require Import IEEE754.BinarySingleNaN.
From Verif Require Import Base.

Definition f64 := binary_float 53 1024.
Global Instance Hprec64 : FLX.Prec_gt_0 53 := eq_refl.
Global Instance Hmax64 : Prec_lt_emax 53 1024 := eq_refl.

Definition fadd (x y : f64) : f64 := Bplus mode_NE x y.
Definition fsub (x y : f64) : f64 := Bminus mode_NE x y.
Definition fdiv (x y : f64) : f64 := Bdiv mode_NE x y.
Definition f0 : f64 := B754_zero false.
Definition f1 : f64 := Bone.
(** Python's float(n) for an integer that a double can hold. *)
Definition f64_of_Z (n : Z) : f64 := binary_normalize 53 1024 Hprec64 Hmax64 mode_NE n 0 false.

(** The built-in sum over a tuple of three floats, transport.py:45-46.
    Up to Python 3.11: plain additions from 0. From Python 3.12 on: CPython's compensated
    (Neumaier) summation, builtin_sum_impl. The package supports Python 3.10 to 3.13
    (pyproject.toml:16, 76), so both are modelled. *)
Definition sum_plain (a b c : f64) : f64 := fadd (fadd (fadd f0 a) b) c.

Definition comp_step (fc : f64 * f64) (x : f64) : f64 * f64 :=
  let (f, c) := fc in
  let t := fadd f x in
  let c := if Bleb (Babs x) (Babs f) then fadd c (fadd (fsub f t) x)
           else fadd c (fadd (fsub x t) f) in
  (t, c).
Definition sum_compensated (a b c : f64) : f64 :=
  let (f, k) := comp_step (comp_step (fadd f0 a, f0) b) c in
  if negb (Beqb k f0) && is_finite k then fadd f k else f.

Definition py_sum (py312 : bool) : f64 -> f64 -> f64 -> f64 :=
  if py312 then sum_compensated else sum_plain.

(** __post_init__: the stored fractions and whether the warning was logged. *)
Definition fuel_composition64 (py312 : bool) (D T H : f64) : res ((f64 * f64 * f64) * bool) :=
  let norm := py_sum py312 D T H in
  if negb (Beqb norm f1) then
    if Beqb norm f0 then Err EZeroDivision
    else Ok ((fdiv D norm, fdiv T norm, fdiv H norm), true)
  else Ok ((D, T, H), false).
