(** Independent specification for C101 (profiles in floating point). *)
From Coq Require Import Reals List ZArith.
From Flocq Require Import Core.Core IEEE754.BinarySingleNaN.
From Verif Require Import SpecProfile.
Import ListNotations.
Open Scope R_scope.

Definition double := binary_float 53 1024.
Definition finite (x : double) : Prop := is_finite x = true.

(** The unit roundoff. *)
Definition unit_roundoff : R := / IZR (2 ^ 53).

(** What is assumed of the platform's power function, for a base in [0, 1] and a positive exponent: the result is in [0, 1] and within 2^-51
    (four units in the last place of numbers just below 1); 0 and 1 are exact, as the C standard demands. *)
Definition power_of_unit (pow : double -> double -> double) : Prop :=
  forall x y, finite x -> finite y -> 0 <= B2R x <= 1 -> 0 < B2R y ->
    finite (pow x y) /\ 0 <= B2R (pow x y) <= 1 /\
    Rabs (B2R (pow x y) - pw (B2R x) (B2R y)) <= 4 * unit_roundoff /\
    (B2R x = 0 -> B2R (pow x y) = 0) /\ (B2R x = 1 -> B2R (pow x y) = 1).

(** Rounding in the power function does not reverse an order. *)
Definition power_monotone (pow : double -> double -> double) : Prop :=
  forall x x' y, finite x -> finite x' -> finite y -> 0 <= B2R x -> B2R x <= B2R x' -> B2R x' <= 1 -> 0 < B2R y ->
    B2R (pow x y) <= B2R (pow x' y).

(** How far apart a-th powers of numbers in [0, 1] can be that differ by d: a d for a >= 1, d^a for a <= 1. *)
Definition power_gap (a d : R) : R := Rmax 1 a * pw d (Rmin 1 a).

(** Magnitudes far from overflow and underflow. *)
Definition moderate (x : R) : Prop := / IZR (2 ^ 90) <= Rabs x <= IZR (2 ^ 90).

(** The rows of a table as real numbers. *)
Definition real_rows (t : list (double * double)) : list (R * R) := map (fun p => (B2R (fst p), B2R (snd p))) t.
(** A table of finite numbers with values up to M and radii that are well apart. *)
Definition sane_table (t : list (double * double)) (M : R) : Prop :=
  (forall p, In p t -> finite (fst p) /\ finite (snd p) /\ Rabs (B2R (snd p)) <= M) /\
  distinct_radii (real_rows t) /\
  (forall p q, In p t -> In q t -> B2R (fst p) <> B2R (fst q) -> moderate (B2R (fst p) - B2R (fst q))).
