(** Independent specification for C85: the integral of the emission over the plasma. *)
From Coq Require Import Reals List ZArith.
From Coquelicot Require Import Coquelicot.
From Verif Require Import Base Reactions SpecReactions Reactivity SpecReactivity Profile Transport Space SpecSpace Source SpecSource SpecGeometry SpecGrid.
Import ListNotations.
Open Scope R_scope.

(** The boundary goes round every point, but for finitely many, either not at all or [s] times: 1 for anticlockwise, -1 for clockwise simple curves. *)
Definition goes_round (s : Z) (l : list (R * R)) : Prop :=
  loop l /\ (s = 1%Z \/ s = (-1)%Z) /\ exists ex, forall p n, ~ In p ex -> winds p l n -> n = 0%Z \/ n = s.

(** A rectangle that holds the plasma. *)
Definition within (X Zlo Zhi : R) (x z : R) : Prop := 0 <= x <= X /\ Zlo <= z <= Zhi.
(** Uniformly continuous there. *)
Definition uniformly_continuous (X Zlo Zhi : R) (f : R -> R -> R) : Prop :=
  forall eps, 0 < eps -> exists del, 0 < del /\ forall x z x' z', within X Zlo Zhi x z -> within X Zlo Zhi x' z' ->
    Rabs (x - x') < del -> Rabs (z - z') < del -> Rabs (f x z - f x' z') < eps.

(** I is the integral of f(x, z) over the volume made by turning the region inside l about the axis x = 0. By Green's theorem it is the boundary
    integral of G(x, z) dz, where G(x, z) is the integral of 2 pi t f(t, z) dt from 0 to x (for anticlockwise l; minus that for clockwise l). *)
Definition volume_integral (X Zlo Zhi : R) (f : R -> R -> R) (s : Z) (l : list (R * R)) (I : R) : Prop :=
  exists (G : R -> R -> R) J, (forall x z, within X Zlo Zhi x z -> is_RInt (fun t => 2 * PI * t * f t z) 0 x (G x z)) /\
    path_integral G l J /\ I = IZR s * J.

(** The sum over the cells of f times the volume of the cell. *)
Definition sum_over_cells (f : R -> R -> R) (ss : list Space.sample) : R := fold_right (fun c v => f (sx c) (sz c) * svol c + v) 0 ss.

(** How fast f changes at most, per metre. *)
Definition changes_at_most (L X Zlo Zhi : R) (f : R -> R -> R) : Prop :=
  forall x z x' z', within X Zlo Zhi x z -> within X Zlo Zhi x' z' -> Rabs (f x z - f x' z') <= L * (Rabs (x - x') + Rabs (z - z')).

(** rate(x, z) is, at the points inside the plasma, the number of reactions r per second and cubic metre: the product of the fuel densities
    (halved for like fuels) and the reactivity at the local temperature. *)
Definition emission (m : masses) (u : units) (h : heap) (tr : transport) (fm : flux_map) (meth : method) (r : reaction) (rate : R -> R -> R) : Prop :=
  forall x z psi T d t h3 sv w a b products, mpl_inside (fm_lcfs fm) (x, z) = true ->
    fm_psi_norm fm (x, z) = Ok psi -> read h (temp_prof tr) psi = Ok T ->
    read h (d_prof tr) psi = Ok d -> read h (t_prof tr) psi = Ok t -> read h (he3_prof tr) psi = Ok h3 ->
    reactivity m u [T] (IReact r) meth = Ok ([sv], w) -> equation (label r) = Some ([a; b], products) ->
    rate x z = pair_density (fuel d t h3) a b * sv.
