(** Independent specification for C100: the OpenMC source with rounding. *)
From Coq Require Import ZArith Reals List.
From Flocq Require Import IEEE754.BinarySingleNaN.
From Verif Require Import Base Reactions SpecReactions SpecSource FloatComp FloatSource SpecFloatSource.
Import ListNotations.
Local Open Scope R_scope.

(** The strengths stored in a source, per reaction: one number per cell. Neutrons per second emitted in cell i by one reaction and by all of them. *)
Definition emitted_by (i : nat) (p : reaction * list f64) : R := INR (neutrons (fst p)) * B2R (nth i (snd p) f0).
Definition emitted (st : list (reaction * list f64)) (i : nat) : R := fold_right (fun p e => emitted_by i p + e) 0 st.
(** By all of n cells. *)
Definition all_emitted (st : list (reaction * list f64)) (n : nat) : R := fold_right (fun i e => emitted st i + e) 0 (seq 0 n).
(** The sources handed to OpenMC for the cells: one for every cell that emits, in order. *)
Inductive one_per_emitting_cell {S : Type} (st : list (reaction * list f64)) (good : nat -> S -> Prop) : list nat -> list S -> Prop :=
| per_nil : one_per_emitting_cell st good [] []
| per_dark i l srcs : emitted st i = 0 -> one_per_emitting_cell st good l srcs -> one_per_emitting_cell st good (i :: l) srcs
| per_bright i l s srcs : 0 < emitted st i -> good i s -> one_per_emitting_cell st good l srcs -> one_per_emitting_cell st good (i :: l) (s :: srcs).
(** The same for the reactions in one cell. *)
Inductive one_per_emitting_reaction {S : Type} (i : nat) (good : reaction * list f64 -> S -> Prop) : list (reaction * list f64) -> list S -> Prop :=
| rea_nil : one_per_emitting_reaction i good [] []
| rea_dark p l xs : emitted_by i p = 0 -> one_per_emitting_reaction i good l xs -> one_per_emitting_reaction i good (p :: l) xs
| rea_bright p l x xs : 0 < emitted_by i p -> good p x -> one_per_emitting_reaction i good l xs -> one_per_emitting_reaction i good (p :: l) (x :: xs).

(** The data of a channel of a new source: the energy and the number of neutrons of the reaction, and the strengths. *)
Definition channel_data (energy : reaction -> f64) (p : reaction * list f64) : data := (energy (fst p), f64_of_Z (Z.of_nat (num_neutrons (fst p))), snd p).
(** The ring around the axis with a square cross-section of side [h] metres centred at radius r and height z, in centimetres: radii from a to b, heights from c to d,
    and radii weighted in proportion to the radius, all to a few units in the last place. *)
Definition square_ring (r z h : R) (radii weights heights : list f64) : Prop :=
  exists a b p q c d, radii = [a; b] /\ weights = [p; q] /\ heights = [c; d] /\
    Forall (fun x => is_finite x = true) [a; b; p; q; c; d] /\
    0 <= B2R a < B2R b /\ B2R c < B2R d /\
    Rabs (B2R a - 100 * (r - h / 2)) <= 100 * (r + h) / 2 ^ 50 /\ Rabs (B2R b - 100 * (r + h / 2)) <= 100 * (r + h) / 2 ^ 50 /\
    Rabs (B2R c - 100 * (z - h / 2)) <= 100 * (Rabs z + h) / 2 ^ 50 /\ Rabs (B2R d - 100 * (z + h / 2)) <= 100 * (Rabs z + h) / 2 ^ 50 /\
    Rabs (B2R p - B2R a / (B2R a + B2R b)) <= / 2 ^ 50 /\ Rabs (B2R q - B2R b / (B2R a + B2R b)) <= / 2 ^ 50.
(** Positions of ordinary size: the cell is not across the axis and not a million times smaller than its distance from the origin. *)
Definition ordinary_place (h r z : f64) : Prop :=
  is_finite r = true /\ is_finite z = true /\ B2R h / 2 <= B2R r <= 2 ^ 20 * B2R h /\ Rabs (B2R z) <= 2 ^ 20 * B2R h.
