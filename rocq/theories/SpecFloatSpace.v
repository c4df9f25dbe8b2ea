(** Independent specification for C95: cell centres with rounding. *)
From Coq Require Import ZArith Reals List.
From Flocq Require Import IEEE754.BinarySingleNaN.
From Verif Require Import FloatComp FloatSource SpecFloatSource.
Import ListNotations.
Local Open Scope R_scope.

(** The numbers along one axis are of ordinary size: all coordinates, the O-point and the cell size are at most M, the cell size is at least a
    millionth of M, M is between 2^-200 and 2^200. *)
Definition ordinary_axis (M : R) (coords : list f64) (o h : f64) : Prop :=
  two (-200) <= M <= two 200 /\
  is_finite h = true /\ M / 2 ^ 20 <= B2R h <= M /\
  is_finite o = true /\ Rabs (B2R o) <= M /\
  Forall (fun c => is_finite c = true /\ Rabs (B2R c) <= M) coords /\ coords <> [].

(** [on_grid M coords o h cs]: up to rounding, [cs] are consecutive multiples of the cell size counted from the O-point, which would have number k;
    they increase; every multiple inside the range of the coordinates has its centre; no centre is more than three cells outside. *)
Definition on_grid (M : R) (coords : list f64) (o h : f64) (cs : list f64) : Prop :=
  exists k : Z,
    (forall i c, nth_error cs i = Some c -> is_finite c = true /\ Rabs (B2R c - (B2R o + (INR i - IZR k) * B2R h)) <= (INR i + 6) * (M / 2 ^ 50)) /\
    (forall i j c d, (i < j)%nat -> nth_error cs i = Some c -> nth_error cs j = Some d -> B2R c < B2R d) /\
    (forall (j : Z) a b, In a coords -> In b coords -> B2R a <= B2R o + IZR j * B2R h <= B2R b ->
       exists i, (i < length cs)%nat /\ INR i = IZR k + IZR j) /\
    (forall c, In c cs -> exists a b, In a coords /\ In b coords /\ B2R a - 3 * B2R h <= B2R c <= B2R b + 3 * B2R h).
