(** Independent specification for the properties of convex plasma boundaries (C69-C72). *)
From Coq Require Import Reals List.
From Verif Require Import SpecGeometry.
Import ListNotations.
Open Scope R_scope.

(** A strictly convex polygon with at least three corners, anticlockwise, its first corner repeated at the end:
    the corners are distinct and every corner lies strictly left of every edge it is not an end of. *)
Definition convex_polygon (l : list (R * R)) : Prop :=
  (4 <= length l)%nat /\
  (exists p r, l = p :: r /\ last r p = p /\ NoDup r) /\
  forall a b c, edge l a b -> In c l -> c <> a -> c <> b -> 0 < turn a b c.

(** The closed region bounded by such a polygon, and its interior: left of all edges. *)
Definition in_polygon (l : list (R * R)) (p : R * R) : Prop := forall a b, edge l a b -> 0 <= turn a b p.
Definition in_interior (l : list (R * R)) (p : R * R) : Prop := forall a b, edge l a b -> 0 < turn a b p.

(** The point a fraction t of the way from p to q. *)
Definition between (p q : R * R) (t : R) : R * R := (fst p + t * (fst q - fst p), snd p + t * (snd q - snd p)).
