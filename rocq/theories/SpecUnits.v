(** Independent specification for unit conversion (C77, C78, C79). *)
From Coq Require Import String Reals ZArith List.
From Verif Require Import Units.
Local Open Scope R_scope.

(** Kinds of physical quantity that may be converted into each other: the same dimension, or one of mass, energy and temperature each, or
    one of mass, energy and temperature per time each. *)
Inductive energy_like : dimension -> (R -> R -> R -> R) -> Prop :=
| EL_mass : energy_like (Dim 0 1 0 0 0 0 0) (fun k_B c2 x => x * c2)
| EL_temperature : energy_like (Dim 0 0 0 0 1 0 0) (fun k_B c2 x => x * k_B)
| EL_energy : energy_like (Dim 2 1 (-2) 0 0 0 0) (fun k_B c2 x => x).
Inductive power_like : dimension -> (R -> R -> R -> R) -> Prop :=
| PL_mass : power_like (Dim 0 1 (-1) 0 0 0 0) (fun k_B c2 x => x * c2)
| PL_temperature : power_like (Dim 0 0 (-1) 0 1 0 0) (fun k_B c2 x => x * k_B)
| PL_energy : power_like (Dim 2 1 (-3) 0 0 0 0) (fun k_B c2 x => x).

(** [x] of dimension [a] and [y] of dimension [b] (numbers in SI base units) are the same amount: equal, or of equal energy (m c^2, k_B T). *)
Inductive same_amount (k_B c2 : R) : dimension -> R -> dimension -> R -> Prop :=
| SA_equal d x : same_amount k_B c2 d x d x
| SA_energy a b f g x y : energy_like a f -> energy_like b g -> f k_B c2 x = g k_B c2 y -> same_amount k_B c2 a x b y
| SA_power a b f g x y : power_like a f -> power_like b g -> f k_B c2 x = g k_B c2 y -> same_amount k_B c2 a x b y.
Definition convertible (a b : dimension) : Prop :=
  a = b \/ (exists f g, energy_like a f /\ energy_like b g) \/ (exists f g, power_like a f /\ power_like b g).

(** What one of a named unit is in SI base units (a unit string may have a factor, as in 10^19/m^3). *)
Definition in_si (q : quantity) : R := fst q * scale (snd q).
Definition dimension_of (q : quantity) : dimension := dim (snd q).
(** A registry is sane if the units it knows are positive. *)
Definition sane (parse : string -> option quantity) : Prop := forall s q, parse s = Some q -> 0 < fst q /\ 0 < scale (snd q).
