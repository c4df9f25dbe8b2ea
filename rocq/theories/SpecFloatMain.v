(** Independent specification for C99: a source of given power, with rounding. *)
From Coq Require Import ZArith Reals List.
From Flocq Require Import IEEE754.BinarySingleNaN.
From Verif Require Import Reactions SpecReactions SpecReactivity SpecSource FloatComp FloatSource SpecFloatSource FloatReactivity SpecFloatReactivity.
Import ListNotations.
Local Open Scope R_scope.

(** A cell of a plasma: cold (temperature not positive, as outside the LCFS) or in the published range of the fits, 0.2 to 100 keV; every density 0 or
    between 1 and 2^80 (10^24) per cubic metre; volume between 2^-60 and 2^20 cubic metres. *)
Definition plasma_density (n : f64) : Prop := is_finite n = true /\ (B2R n = 0 \/ 1 <= B2R n <= two 80).
Definition plasma_cell (c : cell64) : Prop :=
  (is_finite (cell_T c) = true /\ (B2R (cell_T c) <= 0 \/ 0.2 <= B2R (cell_T c) <= 100)) /\
  plasma_density (nd64 (cell_n c)) /\ plasma_density (nt64 (cell_n c)) /\ plasma_density (nhe3_64 (cell_n c)) /\ between (-60) 20 (cell_V c).
(** The fusion power without rounding: sum over the reactions of published strengths times energies. *)
Definition exact_power (energy : reaction -> f64) (rs : list reaction) (cs : list cell64) : R :=
  fold_right (fun r p => total_strength r cs * B2R (energy r) + p) 0 rs.
(** The neutron rate without rounding. *)
Definition exact_neutrons (rs : list reaction) (cs : list cell64) : R :=
  fold_right (fun r p => INR (neutrons r) * total_strength r cs + p) 0 rs.
(** The number of pairs of a reaction and a cell, and of reactions. *)
Definition work (rs : list reaction) (cs : list cell64) : nat := length rs * (length cs + 1).
(** Two parts in 10^12 and two rounding errors per pair. *)
Definition accuracy (rs : list reaction) (cs : list cell64) : R := 2e-12 + INR (2 * work rs cs) / 2 ^ 52.
