(** Independent specification for C105: what MCNP samples from SDEF files whose numbers were computed with rounding. *)
From Coq Require Import Ascii String List Bool Arith ZArith Reals.
From Flocq Require Import IEEE754.BinarySingleNaN.
From Verif Require Import Base SpecSource TextWrap SpecText SpecFormat SpecMcnp SpecSdef FloatComp.
Import ListNotations.
Open Scope R_scope.

(** Bounds within five decimals and a further [tol] (cm). *)
Definition near_bin (tol : R) (a b : R * R) : Prop :=
  Rabs (fst a - fst b) <= 5 / 10 ^ 6 * Rabs (fst b) + tol /\ Rabs (snd a - snd b) <= 5 / 10 ^ 6 * Rabs (snd b) + tol.
(** The probability within a relative error of 2.3e-5. *)
Definition near_region (tol : R) (a b : region) : Prop :=
  near_bin tol (fst (fst a)) (fst (fst b)) /\ near_bin tol (snd (fst a)) (snd (fst b)) /\ close (23 / 10 ^ 6) (snd a) (snd b).

(** Neighbouring centres are a cell's side apart, up to eta. *)
Fixpoint nearly_contiguous (eta h : R) (centres : list R) : Prop :=
  match centres with a :: ((b :: _) as l) => Rabs (b - a - h) <= eta /\ nearly_contiguous eta h l | _ => True end.
(** A ring cell (m) of side h as a region (cm), of a source of total strength w. *)
Definition ring_region (h w : R) (c : cell) : region :=
  let '(r, z, s) := c in ((100 * (r - h / 2), 100 * (r + h / 2)), (100 * (z - h / 2), 100 * (z + h / 2)), s / w).

(** All cells are within D of the origin in each direction. *)
Definition within_reach (D : R) (r z : list f64) (h : f64) : Prop :=
  Forall (fun x : f64 => Rabs (B2R x) + B2R h <= D) r /\ Forall (fun x : f64 => Rabs (B2R x) + B2R h <= D) z.

(** The cells counted as inside leave no gaps on the grid xs, zs: within a column, and between columns that have cells. *)
Definition no_gaps (inside : f64 * f64 -> bool) (xs zs : list f64) : Prop :=
  (forall x z1 z2 z3, In x xs -> In z1 zs -> In z2 zs -> In z3 zs -> B2R z1 < B2R z2 < B2R z3 ->
     inside (x, z1) = true -> inside (x, z3) = true -> inside (x, z2) = true) /\
  (forall x1 x2 x3 z1 z3, In x1 xs -> In x2 xs -> In x3 xs -> In z1 zs -> In z3 zs -> B2R x1 < B2R x2 < B2R x3 ->
     inside (x1, z1) = true -> inside (x3, z3) = true -> exists z2, In z2 zs /\ inside (x2, z2) = true).
