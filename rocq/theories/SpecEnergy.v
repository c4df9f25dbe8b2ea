(** Independent specification for the energy spectrum properties C45-C50. *)
From Coq Require Import Reals List Sorting.Sorted.
From Verif Require Import Reactions SpectraData.
Import ListNotations.
Open Scope R_scope.

(** Trapezoid rule on a list of points (energy, density). *)
Fixpoint integral (l : list (R * R)) : R :=
  match l with
  | (x0, y0) :: (((x1, y1) :: _) as r) => (x1 - x0) * (y0 + y1) / 2 + integral r
  | _ => 0
  end.
Definition increasing (l : list R) : Prop := StronglySorted Rlt l.
Definition nonneg (l : list R) : Prop := Forall (fun x => 0 <= x) l.
Definition positive (l : list R) : Prop := Forall (fun x => 0 < x) l.
(** [m] is what is left of [l] without its leading zeros (i of them) and trailing zeros (j of them). *)
Definition trimmed (l : list R) (i : nat) (m : list R) (j : nat) : Prop :=
  l = repeat 0 i ++ m ++ repeat 0 j /\ m <> [] /\ hd 0 m <> 0 /\ last m 0 <> 0.

(** Ballabio et al. (1998), table III, for the temperature T in keV: mean energy and standard deviation in keV. *)
Definition published_mean (r : reaction) (T : R) : R :=
  match r with
  | DT => 14021 + (5.30509 / (1 + 2.4736e-3 * Rpower T 1.84) * Rpower T (2 / 3) + 1.3818 * T)
  | DDn => 2449.5 + (4.69515 / (1 - 0.040729 * Rpower T 0.47) * Rpower T (2 / 3) + 0.81844 * T)
  | _ => 0
  end.
Definition published_sigma (r : reaction) (T : R) : R :=
  match r with
  | DT => 177.259 * (1 + (5.1068e-4 / (1 + 7.6223e-3 * Rpower T 1.78) * Rpower T (2 / 3) + 8.7691e-5 * T)) * sqrt T / 2.3548200450309493
  | DDn => 82.542 * (1 + (1.7013e-3 / (1 + 0.16888 * Rpower T 0.49) * Rpower T (2 / 3) + 7.9460e-4 * T)) * sqrt T / 2.3548200450309493
  | _ => 0
  end.
Definition nominal (r : reaction) : R := match r with DT => 14021 | DDn => 2449.5 | _ => 0 end.

(** The two shapes, up to a constant factor. *)
Definition gaussian (mu sigma E : R) : R := exp (- ((E - mu) ^ 2 / (2 * sigma ^ 2))).
(** Eqs. 46 and 47 of Ballabio et al. *)
Definition m_gaussian_alpha (mu sigma : R) : R := 1 - 3 / 2 * (sigma / mu) ^ 2.
Definition m_gaussian_peak (mu sigma : R) : R := mu * sqrt (m_gaussian_alpha mu sigma).
Definition m_gaussian_width2 (mu sigma : R) : R :=
  4 / 3 * mu ^ 2 * (sqrt (m_gaussian_alpha mu sigma) - m_gaussian_alpha mu sigma).
Definition m_gaussian (mu sigma E : R) : R :=
  exp (- (2 * m_gaussian_peak mu sigma * (sqrt E - sqrt (m_gaussian_peak mu sigma)) ^ 2 / m_gaussian_width2 mu sigma)).

(** The decimals of the data file. *)
Definition decimal (d : dec) : R := match d with V m e => IZR m / IZR (10 ^ Z.of_N e) end.
(** The energy grid in keV and the spectrum tabulated for the j-th temperature in 1/keV. *)
Definition table_energies : list R := map (fun row => 1000 * decimal (fst row)) tt_rows.
Definition table_spectrum (j : nat) : list R := map (fun row => decimal (nth j (snd row) (V 0 0)) / 1000) tt_rows.
(** The j-th tabulated temperature in keV. *)
Definition table_temperature (j : nat) : R := 1 + 19 / 39 * INR j.
