(** Independent specification for C102 (closed surfaces in floating point). *)
From Coq Require Import Reals List ZArith Permutation.
From Flocq Require Import Core.Core IEEE754.BinarySingleNaN.
From Verif Require Import FloatComp FloatSource FloatSpace SpecGeometry.
Import ListNotations.
Open Scope R_scope.

Notation double := f64 (only parsing).
Definition finite (x : double) : Prop := is_finite x = true.
(** A point as real numbers. *)
Definition point (p : double * double) : R * R := (B2R (fst p), B2R (snd p)).

(** [dots l x]: x is the scalar product of the pairs of [l], got with rounding, in any order and grouping, by products, sums and fused
    operations x * y + z (what BLAS libraries do; fmul, fadd and
    ffma are IEEE multiplication, addition and fused multiply-add). *)
Inductive dots : list (double * double) -> double -> Prop :=
| dots_zero z : finite z -> B2R z = 0 -> dots [] z
| dots_mul x y : dots [(x, y)] (fmul x y)
| dots_fma l l' x y a : Permutation l ((x, y) :: l') -> dots l' a -> dots l (ffma x y a)
| dots_add l l1 l2 a b : Permutation l (l1 ++ l2) -> dots l1 a -> dots l2 b -> dots l (fadd a b).
Definition scalar_product (dot : list double -> list double -> double) : Prop :=
  forall x y, length x = length y -> dots (combine x y) (dot x y).

(** The polygon of the points: closed by going back to the first one. *)
Definition polygon (l : list (double * double)) : list (R * R) :=
  match map point l with [] => [] | p :: r => p :: r ++ [p] end.

(** At most 2^20 points with coordinates up to C, C of moderate size. *)
Definition sane_points (l : list (double * double)) (C : R) : Prop :=
  (forall p, In p l -> finite (fst p) /\ finite (snd p) /\ Rabs (B2R (fst p)) <= C /\ Rabs (B2R (snd p)) <= C) /\
  INR (length l) <= IZR (2 ^ 20) /\ / IZR (2 ^ 50) <= C <= IZR (2 ^ 50).

(** The area that n points with coordinates up to C leave undetermined: rounding, and the gap of up to 1e-12 that a closed surface may have
    between its ends. *)
Definition slack (n : nat) (C : R) : R := C * (INR n ^ 2 * C / IZR (2 ^ 53) + 1.1e-12).

(** Area A > 0 and centre of mass of a polygon as boundary integrals, in the orientation s = 1 or -1 that makes the area positive. *)
Definition area_and_center (l : list (R * R)) (A X Z : R) : Prop :=
  exists s a mx mz, (s = 1 \/ s = -1) /\ path_integral (fun x _ => x) l a /\ path_integral (fun x _ => x * x) l mx /\
    path_integral (fun x z => x * z) l mz /\ A = s * a /\ 0 < A /\ X = s * mx / (2 * A) /\ Z = s * mz / A.
