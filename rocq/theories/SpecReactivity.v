(** Independent specification for the reactivity properties C13-C17. *)
From Coq Require Import Reals List String.
From Verif Require Import Reactions SpecReactions.
Import ListNotations.
Open Scope R_scope.

(** ** C13: the number of reacting pairs per volume, n1 n2 / (1 + delta). *)
Definition pair_density (n : nuclide -> R) (a b : nuclide) : R :=
  n a * n b / (1 + (if nuclide_eq_dec a b then 1 else 0)).
(** Densities of a cell by nuclide: deuterium, tritium, helium-3; nothing else is fuel. *)
Definition fuel (d t h : R) (x : nuclide) : R :=
  match x with nD => d | nT => t | nHe3 => h | _ => 0 end.

(** ** C14, C15: H.-S. Bosch and G.M. Hale, Nucl. Fusion 32 (1992) 611, eqs. (12)-(14):
    <sigma v> in cm^3/s for T in keV. *)
Definition bh_theta (C2 C3 C4 C5 C6 C7 T : R) : R :=
  T / (1 - T * (C2 + T * (C4 + T * C6)) / (1 + T * (C3 + T * (C5 + T * C7)))).
Definition bh_fit (BG mc2 C1 C2 C3 C4 C5 C6 C7 T : R) : R :=
  let theta := bh_theta C2 C3 C4 C5 C6 C7 T in
  let xi := Rpower (BG ^ 2 / (4 * theta)) (1 / 3) in
  C1 * theta * sqrt (xi / (mc2 * T ^ 3)) * exp (- 3 * xi).
(** Table VII of the paper. *)
Definition published (r : reaction) (T : R) : R :=
  match r with
  | DT => bh_fit 34.3827 1124656 1.17302e-9 1.51361e-2 7.51886e-2 4.60643e-3 1.35e-2 (-1.0675e-4) 1.366e-5 T
  | DDn => bh_fit 31.3970 937814 5.43360e-12 5.85778e-3 7.68222e-3 0 (-2.964e-6) 0 0 T
  | DDp => bh_fit 31.3970 937814 5.65718e-12 3.41267e-3 1.99167e-3 0 1.0506e-5 0 0 T
  | _ => 0
  end.
(** In m^3/s, and nothing reacts at T <= 0. *)
Definition published_SI (r : reaction) (T : R) : R := if Rle_dec T 0 then 0 else published r T / 1000000.
(** The reactions covered by the paper that the library offers. *)
Definition fitted (r : reaction) : Prop := r = DT \/ r = DDn \/ r = DDp.

(** ** C16: the Maxwell average (8/(pi mu))^(1/2) (kT)^(-3/2) Int sigma(E) E exp(-E/kT) dE,
    by the trapezoidal rule on nodes E_0 .. E_(n-1). *)
Definition maxwell_integrand (mu kT sigma E : R) : R :=
  sqrt (8 / (PI * mu)) / (kT * sqrt kT) * (sigma * E * exp (- (E / kT))).
Fixpoint sum_upto (n : nat) (f : nat -> R) : R := match n with O => 0 | S k => sum_upto k f + f k end.
Definition trapezoid_rule (n : nat) (x f : nat -> R) : R :=
  sum_upto (n - 1) (fun i => (x (S i) - x i) * (f i + f (S i)) / 2).
(** The 1000 energies, log-spaced from 1 keV to 1000 keV. *)
Definition log_node (i : nat) : R := Rpower 10 (3 * INR i / 999).

(** Molar masses near their true values (2.014, 3.016, 3.016 amu): all that C16 needs. *)
Definition physical_masses (m : masses) : Prop := 2 < mD m < 2.1 /\ 3 < mT m < 3.1 /\ 3 < mHe3 m < 3.1.
