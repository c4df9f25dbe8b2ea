(** Independent specification for C106: the tabulated T-T spectrum with rounding. *)
From Coq Require Import ZArith Reals List.
From Flocq Require Import Core.Core IEEE754.BinarySingleNaN.
From Verif Require Import SpectraData SpecEnergy FloatComp SpecFloatEnergy.
Import ListNotations.
Local Open Scope R_scope.

(** A literal of the data file is read as the nearest binary64 number. *)
Definition read_as (x : f64) (d : dec) : Prop :=
  is_finite x = true /\ B2R x = round radix2 (FLT_exp (-1074) 53) ZnearestE (decimal d).
(** The rows of the shipped file as numpy reads them. *)
Definition read_rows (rows : list (f64 * list f64)) : Prop :=
  Forall2 (fun r r' => read_as (fst r) (fst r') /\ Forall2 read_as (snd r) (snd r')) rows tt_rows.
(** The temperature limited to the range of the table, 1 keV to 20 keV. *)
Definition limited (T : f64) (t : R) : Prop :=
  (is_finite T = true /\ t = Rmin (Rmax (B2R T) 1) 20) \/ (T = B754_infinity false /\ t = 20) \/ (T = B754_infinity true /\ t = 1).
(** Row i of the table, linearly interpolated between the columns j and j + 1 at the temperature t. *)
Definition interpolated (j : nat) (t : R) (i : nat) : R :=
  let u := (t - table_temperature j) / (table_temperature (S j) - table_temperature j) in
  (1 - u) * nth i (table_spectrum j) 0 + u * nth i (table_spectrum (S j)) 0.
(** The same, normalised to integral 1. *)
Definition table_density (j : nat) (t : R) (i : nat) : R :=
  interpolated j t i / integral (combine table_energies (map (interpolated j t) (seq 0 500))).
(** A spectrum of 500 rows: finite energies within 11 roundings of the table's, increasing; densities finite, positive and within 12000 roundings (1.4e-12)
    of the normalised table at the temperature t; integral within 512 roundings of 1. *)
Definition near_table (j : nat) (t : R) (e p : list f64) : Prop :=
  length e = 500%nat /\ length p = 500%nat /\
  (forall i, (i < 500)%nat -> exists E D, nth_error e i = Some E /\ nth_error p i = Some D /\
    is_finite E = true /\ Rabs (B2R E - nth i table_energies 0) <= 11 / 2 ^ 53 * nth i table_energies 0 /\
    is_finite D = true /\ 0 < B2R D /\ Rabs (B2R D - table_density j t i) <= 12000 / 2 ^ 53 * table_density j t i) /\
  increasing (map B2R e) /\
  Rabs (area e p - 1) <= 512 / 2 ^ 53.
