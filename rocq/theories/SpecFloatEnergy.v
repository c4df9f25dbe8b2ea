(** Independent specification for C103: energy spectra with rounding. *)
From Coq Require Import ZArith Reals List.
From Flocq Require Import IEEE754.BinarySingleNaN.
From Verif Require Import Reactions SpecEnergy FloatComp SpecFloatSource.
Import ListNotations.
Local Open Scope R_scope.

(** Consecutive numbers grow by at least g. *)
Fixpoint spaced (g : R) (l : list f64) : Prop :=
  match l with
  | x :: ((y :: _) as r) => B2R x + g <= B2R y /\ spaced g r
  | _ => True
  end.
(** A table (energies, densities) of ordinary size: energies up to 2^100 and at least 2^-100 apart, densities zero or between 2^-600 and 2^100, at
    most 2^40 rows. *)
Definition ordinary_table (e p : list f64) : Prop :=
  length e = length p /\ INR (length e) <= two 40 /\
  Forall (fun x => is_finite x = true /\ Rabs (B2R x) <= two 100) e /\ spaced (two (-100)) e /\
  Forall (fun x => is_finite x = true /\ (B2R x = 0 \/ two (-600) <= B2R x <= two 100)) p.
(** The k-th energy of the exact grid: 1000 equally spaced energies from mu - 6 sigma to mu + 6 sigma. *)
Definition grid_energy (mu sigma : R) (k : nat) : R := mu + (12 * INR k / 999 - 6) * sigma.
(** The normalised density of a shape on the exact grid: the shape divided by its trapezoid integral. *)
Definition grid_density (shape : R -> R) (mu sigma : R) (k : nat) : R :=
  shape (grid_energy mu sigma k) /
  integral (map (fun i => (grid_energy mu sigma i, shape (grid_energy mu sigma i))) (seq 0 1000)).

(** The integral of a spectrum in binary64, as a real number. *)
Definition area (e p : list f64) : R := integral (combine (map B2R e) (map B2R p)).
(** A spectrum of 1000 rows: energies finite, positive, strictly increasing and within 53 roundings of the exact grid, densities finite, positive and
    within a relative error [eps] of the normalised shape, integral within 1020 roundings of 1. *)
Definition spectrum_near (eps : R) (shape : R -> R) (mu sigma : R) (e p : list f64) : Prop :=
  length e = 1000%nat /\ length p = 1000%nat /\
  (forall k, (k < 1000)%nat -> exists E D, nth_error e k = Some E /\ nth_error p k = Some D /\
    is_finite E = true /\ 0 < B2R E /\ Rabs (B2R E - grid_energy mu sigma k) <= 53 / 2 ^ 53 * mu /\
    is_finite D = true /\ 0 < B2R D /\ Rabs (B2R D - grid_density shape mu sigma k) <= eps * grid_density shape mu sigma k) /\
  increasing (map B2R e) /\
  Rabs (area e p - 1) <= 1020 / 2 ^ 53.
