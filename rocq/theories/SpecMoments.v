(** Independent specification for C93: mean and standard deviation of a tabulated density, with the trapezoid rule. *)
From Coq Require Import Reals List.
From Verif Require Import SpecEnergy.
Open Scope R_scope.

(** The average of [h E] over the spectrum with energies [e] and densities [p]. *)
Definition average (h : R -> R) (e p : list R) : R := integral (combine e (map (fun x => h (fst x) * snd x) (combine e p))).
Definition spectrum_mean (e p : list R) : R := average (fun E => E) e p.
Definition spectrum_deviation (e p : list R) : R := sqrt (average (fun E => (E - spectrum_mean e p) ^ 2) e p).
