(** Independent specification for C86, C87: numbers without jumps. *)
From Coq Require Import Reals List.
From Verif Require Import Base Reactions Profile SpecReactions Reactivity SpecReactivity Transport.
Import ListNotations.
Open Scope R_scope.

(** The number [reactivity(T, r, method)] returns for a single temperature (whatever it warns about). *)
Definition reactivity_is (m : masses) (u : units) (r : reaction) (meth : method) (T v : R) : Prop :=
  exists w, reactivity m u [T] (IReact r) meth = Ok ([v], w).

(** What is computed from x, written [comp x v], does not jump at x: from every y in the domain near enough to x a value as near as wanted is computed. *)
Definition no_jump (dom : R -> Prop) (comp : R -> R -> Prop) (x : R) : Prop :=
  forall eps, 0 < eps -> exists del, 0 < del /\ forall y, dom y -> Rabs (y - x) < del ->
    exists v v', comp x v /\ comp y v' /\ Rabs (v' - v) < eps.

(** Whether the Bosch-Hale fit is what the method uses for the reaction. *)
Definition uses_fit (r : reaction) (meth : method) : Prop := fitted r /\ meth <> MXS.
(** Temperatures with a result: any for the fit (for D-D(n), below its pole above 965 keV, see C15), positive ones for the cross sections (C16). *)
Definition regular (r : reaction) (meth : method) (T : R) : Prop := (uses_fit r meth -> r = DDn -> T <= 965) /\ (~ uses_fit r meth -> 0 < T).

(** value(x) of a profile object, given itself or by reference. *)
Definition profile_is (p : profile) (x v : R) : Prop := value p x = Ok v.
Definition reads (h : heap) (p : ref) (x v : R) : Prop := read h p x = Ok v.
