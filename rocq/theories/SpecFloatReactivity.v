(** Independent specification for C98: elementary functions with rounding. *)
From Coq Require Import ZArith Reals List.
From Flocq Require Import IEEE754.BinarySingleNaN.
From Verif Require Import Reactions SpecReactions SpecReactivity FloatComp SpecFloatSource FloatReactivity.
Import ListNotations.
Local Open Scope R_scope.

(** [f] is the positive number [y] up to four units in the last place (4 * 2^-52 at most, relatively). *)
Definition four_ulp (f : f64) (y : R) : Prop := is_finite f = true /\ Rabs (B2R f - y) <= 8 / 2 ^ 53 * y.
(** A power function and an exponential of the quality numpy and the C library promise, as long as results are far from under- and overflow. *)
Definition good_pow (pow : f64 -> f64 -> f64) : Prop := forall x y,
  is_finite x = true -> is_finite y = true -> 0 < B2R x -> two (-1000) <= Rpower (B2R x) (B2R y) <= two 1000 ->
  four_ulp (pow x y) (Rpower (B2R x) (B2R y)).
Definition good_exp (e : f64 -> f64) : Prop := forall x,
  is_finite x = true -> two (-1000) <= exp (B2R x) <= two 1000 -> four_ulp (e x) (exp (B2R x)).

(** A cell: temperature in keV, densities, volume. *)
Record cell64 := { cell_T : f64; cell_n : dens64; cell_V : f64 }.
(** A density that is zero or between 1 and 2^100 per cubic metre. *)
Definition density_ok (n : f64) : Prop := is_finite n = true /\ (B2R n = 0 \/ 1 <= B2R n <= two 100).
(** Numbers of ordinary size: temperature not positive (nothing reacts) or from 1 eV to 100 keV; volume between 2^-60 and 2^60 cubic metres. *)
Definition temperature_ok (T : f64) : Prop := is_finite T = true /\ (B2R T <= 0 \/ 1 / 1000 <= B2R T <= 100).
Definition ordinary_cell (c : cell64) : Prop :=
  temperature_ok (cell_T c) /\ density_ok (nd64 (cell_n c)) /\ density_ok (nt64 (cell_n c)) /\ density_ok (nhe3_64 (cell_n c)) /\ between (-60) 60 (cell_V c).
(** Reactions per second in a cell, from the label of the reaction and the published fit: n1 n2 / (1 + delta) <sigma v> V. *)
Definition exact_strength (r : reaction) (c : cell64) : R :=
  match equation (label r) with
  | Some ([a; b], _) => pair_density (fuel (B2R (nd64 (cell_n c))) (B2R (nt64 (cell_n c))) (B2R (nhe3_64 (cell_n c)))) a b * published_SI r (B2R (cell_T c)) * B2R (cell_V c)
  | _ => 0
  end.
Definition total_strength (r : reaction) (cs : list cell64) : R := fold_right (fun c s => exact_strength r c + s) 0 cs.
(** [x] is the non-negative number [y] up to a relative error e. *)
Definition rel_error (e : R) (x : f64) (y : R) : Prop := is_finite x = true /\ Rabs (B2R x - y) <= e * y.
