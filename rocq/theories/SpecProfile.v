(** Independent specification for the profile properties C18-C22. *)
From Coq Require Import Reals List.
Import ListNotations.
Open Scope R_scope.

(** The clamp of a radius to the plasma. *)
Definition clamp01 (x : R) : R := Rmin (Rmax x 0) 1.

(** x^a for x >= 0 and a > 0 (the library's Rpower is meaningless at 0). *)
Definition pw (x a : R) : R := if Rlt_dec 0 x then Rpower x a else 0.

(** The textbook parabola. *)
Definition parabola (core alpha beta rho : R) : R := core * pw (1 - pw rho beta) alpha.

(** The textbook parabola on a pedestal, for a pedestal radius strictly between 0 and 1. *)
Definition parabola_on_pedestal (core ped sep alpha beta rp rho : R) : R :=
  if Rlt_dec rho rp then ped + (core - ped) * pw (1 - pw (rho / rp) beta) alpha
  else sep + (ped - sep) * ((1 - rho) / (1 - rp)).

(** Product of a list of scales. *)
Definition product (l : list R) : R := fold_right Rmult 1 l.

(** Tables of (radius, value) rows with distinct radii. *)
Definition distinct_radii (t : list (R * R)) : Prop := NoDup (map fst t).
Definition table_monotone (t : list (R * R)) : Prop :=
  forall x y x' y', In (x, y) t -> In (x', y') t -> x <= x' -> y <= y'.
Definition neighbours (t : list (R * R)) (p q : R * R) : Prop :=
  In p t /\ In q t /\ fst p < fst q /\ forall r, In r t -> ~ (fst p < fst r < fst q).
Definition inside_table (t : list (R * R)) (x : R) : Prop :=
  (exists p, In p t /\ fst p <= x) /\ (exists q, In q t /\ x <= fst q).
