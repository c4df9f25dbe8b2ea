(** Independent specification for the sampling properties C28-C31. *)
From Coq Require Import Reals List ZArith.
From Verif Require Import Base Space.
Import ListNotations.
Open Scope R_scope.

Definition sx (s : sample) : R := fst (fst s).
Definition sz (s : sample) : R := snd (fst s).
Definition svol (s : sample) : R := snd s.

(** The lattice of cell centres. *)
Definition lattice (o : R * R) (h : R) (i j : Z) : R * R := (fst o + IZR i * h, snd o + IZR j * h).

(** A polygon test that never accepts points outside the polygon's bounding box. *)
Definition stays_in_box (inside : list (R * R) -> R * R -> bool) : Prop :=
  forall poly p, inside poly p = true ->
    (exists v, In v poly /\ fst v <= fst p) /\ (exists v, In v poly /\ fst p <= fst v) /\
    (exists v, In v poly /\ snd v <= snd p) /\ (exists v, In v poly /\ snd p <= snd v).

(** Volume of the ring with rectangular section [x-h/2, x+h/2] x [height h]. *)
Definition ring_volume (x h : R) : R := PI * (Rsqr (x + h / 2) - Rsqr (x - h / 2)) * h.

(** Interior of the square cell of side h centred at (x, z). *)
Definition in_cell (h : R) (s : sample) (x z : R) : Prop := Rabs (x - sx s) < h / 2 /\ Rabs (z - sz s) < h / 2.

(** Order of the samples. *)
Definition before (s t : sample) : Prop := sx s < sx t \/ (sx s = sx t /\ sz s < sz t).

Definition shift_pt (a b : R) (p : R * R) : R * R := (fst p + a, snd p + b).
