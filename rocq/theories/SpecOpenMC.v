(** Independent specification for the OpenMC properties C51-C54, C65. *)
From Coq Require Import Reals List.
From Verif Require Import Base Reactions SpecReactions Space SpecSpace Source SpecSource Energy SpecEnergy OpenMC.
Import ListNotations.
Open Scope R_scope.

(** Neutrons per second emitted in cell i by channel r, and by all channels. *)
Definition channel_emission (s : source) (r : reaction) (i : nat) : R :=
  match dget (strength s) r with Some st => INR (neutrons r) * nth i st 0 | None => 0 end.
Definition emission (s : source) (i : nat) : R := total (map (fun r => channel_emission s r i) (source_type s)).

(** The cells that emit neutrons, in order. *)
Definition emitting (s : source) : list nat := filter (fun i => Rltb 0 (emission s i)) (seq 0 (length (cells s))).
(** The channels that emit neutrons in cell i, in order. *)
Definition emitting_channels (s : source) (i : nat) : list reaction :=
  filter (fun r => Rltb 0 (channel_emission s r i)) (source_type s).

(** No strength is negative. *)
Definition no_sinks (s : source) : Prop := forall r st x, dget (strength s) r = Some st -> In x st -> 0 <= x.

(** The energy distribution (in eV) expected for channel r at temperature T. *)
Inductive expected_distribution (d : tt_data) (meth : spectrum_method) (r : reaction) (T : R) : univariate -> Prop :=
| expected_normal mean std b : meth = SGaussian -> ballabio_spectrum r = Some b ->
    mean_energy b T = Ok mean -> std_deviation b T = Ok std ->
    expected_distribution d meth r T (Normal (1000 * mean) (1000 * std))
| expected_table e p w : (meth <> SGaussian \/ ballabio_spectrum r = None) ->
    energy_spectrum d T r meth = Ok (Some (e, p), w) ->
    expected_distribution d meth r T (Tabular (map (fun x => 1000 * x) e) p).

(** The integral of a distribution's density as it is handed to OpenMC. *)
Definition density_integral (u : univariate) : R :=
  match u with
  | Normal _ _ | Uniform _ _ => 1
  | Tabular x p => integral (combine x p)
  | Mixture p _ => total p
  end.

(** Area under the straight line through (x0, p0) and (x1, p1) between x0 and x. *)
Definition area_under_line (x0 p0 x1 p1 x : R) : R :=
  let p := p0 + (p1 - p0) * (x - x0) / (x1 - x0) in (x - x0) * (p0 + p) / 2.
