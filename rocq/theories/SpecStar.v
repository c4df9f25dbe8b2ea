(** Independent specification for C88: which boundaries are simple closed curves. *)
From Coq Require Import Reals List.
From Verif Require Import SpecGeometry.
Import ListNotations.
Open Scope R_scope.

(** The point at the distance r(t) from c in the direction t. *)
Definition at_angle (c : R * R) (r : R -> R) (t : R) : R * R := (fst c + r t * cos t, snd c + r t * sin t).
(** Angles that increase by less than half a turn each. *)
Inductive turning : list R -> Prop :=
| turning_one t : turning [t]
| turning_more t u ts : t < u < t + PI -> turning (u :: ts) -> turning (t :: u :: ts).
(** Seen from c, the corners of the boundary go once round, anticlockwise: the boundary is met once in every direction. *)
Definition seen_once (l : list (R * R)) : Prop :=
  exists c r t ts, l = map (at_angle c r) (t :: ts) /\ turning (t :: ts) /\ last ts t = t + 2 * PI /\ (forall u, 0 < r u /\ r (u + 2 * PI) = r u).

(** The edge a b is at the height z at this x. *)
Definition x_at (a b : R * R) (z x : R) : Prop := exists s, 0 <= s <= 1 /\ z = snd a + s * (snd b - snd a) /\ x = fst a + s * (fst b - fst a).
(** At every height at most one edge goes up, at most one goes down, and the one going up is on the outboard side
    (at the larger x); the two touch only at corners. *)
Inductive ups (z : R) : list (R * R) -> nat -> Prop :=
| ups_point a : ups z [a] 0
| ups_yes a b l n : snd a < z <= snd b -> ups z (b :: l) n -> ups z (a :: b :: l) (S n)
| ups_no a b l n : ~ snd a < z <= snd b -> ups z (b :: l) n -> ups z (a :: b :: l) n.
Definition two_sided (l : list (R * R)) : Prop :=
  loop l /\ (forall z n, ups z l n -> (n <= 1)%nat) /\
  forall a b c d z x x', edge l a b -> edge l c d -> snd a < z <= snd b -> snd d < z <= snd c -> x_at a b z x -> x_at c d z x' -> x' < x \/ (x' = x /\ In (x, z) l).
