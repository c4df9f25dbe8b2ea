(** Independent specification for C33-C36: boundary integrals of polygons. *)
From Coq Require Import Reals List.
From Coquelicot Require Import Coquelicot.
Import ListNotations.
Open Scope R_scope.

(** The integral of F(x, z) dz along the straight edge from p to q is v. *)
Definition edge_integral (F : R -> R -> R) (p q : R * R) (v : R) : Prop :=
  is_RInt (fun t => F (fst p + t * (fst q - fst p)) (snd p + t * (snd q - snd p)) * (snd q - snd p)) 0 1 v.

(** The integral of F(x, z) dz along a polyline. *)
Inductive path_integral (F : R -> R -> R) : list (R * R) -> R -> Prop :=
| pi_point p : path_integral F [p] 0
| pi_edge p q l v w : edge_integral F p q v -> path_integral F (q :: l) w -> path_integral F (p :: q :: l) (v + w).

(** Exactly closed polyline: the last point is the first. *)
Definition loop (l : list (R * R)) : Prop := exists p r, l = p :: r /\ last r p = p.

(** Linear map plus shift. *)
Definition affine (a b c d e f : R) (p : R * R) : R * R :=
  (a * fst p + b * snd p + e, c * fst p + d * snd p + f).

(** Consecutive points. *)
Definition edge (l : list (R * R)) (p q : R * R) : Prop := exists l1 l2, l = l1 ++ p :: q :: l2.

(** Twice the signed area of the triangle o p q. *)
Definition turn (o p q : R * R) : R := (fst p - fst o) * (snd q - snd o) - (fst q - fst o) * (snd p - snd o).

(** Star-shaped about o: seen from o the boundary always turns the same way (in one of the two orientations). *)
Definition star_shaped (l : list (R * R)) (o : R * R) : Prop :=
  (forall p q, edge l p q -> 0 <= turn o p q) \/ (forall p q, edge l p q -> turn o p q <= 0).
