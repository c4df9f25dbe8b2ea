(** Independent specification for C96, C97: the region bounded by a smooth closed curve. *)
From Coq Require Import Reals List.
From Coquelicot Require Import Coquelicot.
Import ListNotations.
Open Scope R_scope.

(** Area of the region a closed curve c, run through once as t goes from 0 to 2 pi, encloses (Green's theorem:
    the integral of x dz; positive if the curve is run through anticlockwise), and the volume that region
    sweeps when revolved about the z axis (pi times the integral of x^2 dz). *)
Definition enclosed_area (c : R -> R * R) : R :=
  RInt (fun t => fst (c t) * Derive (fun s => snd (c s)) t) 0 (2 * PI).
Definition enclosed_volume (c : R -> R * R) : R :=
  PI * RInt (fun t => fst (c t) ^ 2 * Derive (fun s => snd (c s)) t) 0 (2 * PI).

(** A smooth closed curve: derivatives (x', z') with |x'| <= Lx, |z'| <= Lz that change by at most Mx, Mz per
    unit of t. *)
Definition smooth_curve (c : R -> R * R) (Lx Mx Lz Mz : R) : Prop :=
  c (2 * PI) = c 0 /\
  exists x' z', (forall t, is_derive (fun s => fst (c s)) t (x' t) /\ is_derive (fun s => snd (c s)) t (z' t)) /\
    (forall t, Rabs (x' t) <= Lx /\ Rabs (z' t) <= Lz) /\
    (forall s t, Rabs (x' t - x' s) <= Mx * Rabs (t - s) /\ Rabs (z' t - z' s) <= Mz * Rabs (t - s)).
