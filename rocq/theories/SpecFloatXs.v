(** Independent specification for C107: the Maxwell average of a cross section. *)
From Coq Require Import Reals.
From Verif Require Import SpecReactivity.
Open Scope R_scope.

(** The Maxwell average <sigma v> at temperature T (keV) for the reduced mass mu (kg), when a keV is k joules and the cross section is sigma i (m^2) at the
    i-th of the 1000 log-spaced energies from 1 keV to 1000 keV: the trapezoidal rule on those energies. *)
Definition maxwell_average (k mu T : R) (sigma : nat -> R) : R :=
  trapezoid_rule 1000 (fun i => log_node i * k) (fun i => maxwell_integrand mu (T * k) (sigma i) (log_node i * k)).
