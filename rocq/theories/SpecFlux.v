(** Independent specification for the flux-map properties C32, C37-C44. *)
From Coq Require Import Reals List.
From Verif Require Import Base Geometry Flux.
Import ListNotations.
Open Scope R_scope.

(** Sensible plasma shape parameters. *)
Definition sensible (r0 asp kap del shift : R) : Prop :=
  0 < r0 /\ 1 < asp /\ 1 <= kap /\ -1 <= del <= 1 /\ Rabs shift < r0 / asp.

(** Shape information a user can hold. *)
Definition shape (i : lcfs_info) : Prop :=
  exists r0 z0 asp kap del shift sq, make_lcfs_info r0 z0 asp kap del shift sq = Ok i.

(** Fausser et al.: the surface with normalised radius psi of a plasma of major radius R0, minor radius a,
    elongation k, triangularity d and Shafranov shift D, centred vertically at Z0, at poloidal angle t. *)
Definition fausser (R0 Z0 a k d D psi t : R) : R * R :=
  (R0 + psi * a * cos (t + d * sin t) + D * (1 - psi ^ 2), Z0 + k * (psi * a) * sin t).
(** Sauter et al. with squareness x as the code has it. *)
Definition sauter (R0 Z0 a k d x psi t : R) : R * R :=
  (R0 + psi * a * cos (t + d * sin t) - x * sin (2 * t), Z0 + k * (psi * a) * sin (t + x * sin (2 * t))).

(** The k-th of n equally spaced angles over a full turn, both ends included. *)
Definition angle (n k : nat) : R := 2 * PI * INR k / INR (n - 1).

(** Reflection in the horizontal line z = z0. *)
Definition mirror (z0 : R) (p : R * R) : R * R := (fst p, 2 * z0 - snd p).

(** Distance, and length of a polyline. *)
Definition distance (p q : R * R) : R := sqrt ((fst q - fst p) ^ 2 + (snd q - snd p) ^ 2).
Fixpoint path_length (l : list (R * R)) : R :=
  match l with p :: ((q :: _) as r) => distance p q + path_length r | _ => 0 end.

(** r is the point of a polyline reached after walking the distance s along it. *)
Inductive walk : list (R * R) -> R -> R * R -> Prop :=
| walk_end p : walk [p] 0 p
| walk_here p q l s : 0 <= s < distance p q ->
    walk (p :: q :: l) s (fst p + s / distance p q * (fst q - fst p), snd p + s / distance p q * (snd q - snd p))
| walk_on p q l s r : distance p q <= s -> walk (q :: l) (s - distance p q) r -> walk (p :: q :: l) s r.

(** Mean point of a polyline and its squared distance to a point. *)
Fixpoint sum (l : list R) : R := match l with [] => 0 | x :: r => x + sum r end.
Definition mean_point (l : list (R * R)) : R * R :=
  (sum (map fst l) / INR (length l), sum (map snd l) / INR (length l)).
Definition sqdist (p q : R * R) : R := (fst p - fst q) ^ 2 + (snd p - snd q) ^ 2.

(** Normalised flux of one value: 0 on the axis, 1 on the boundary, clipped below; or its square root. *)
Definition flux_label (c : convention) (axis bdry p : R) : R :=
  let x := Rmax ((p - axis) / (bdry - axis)) 0 in match c with LINEAR => x | SQRT => sqrt x end.

(** The same equilibrium with all fluxes changed by one affine map (another COCOS convention). *)
Definition recocos (k b : R) (e : eqdsk) : eqdsk :=
  {| eq_x := eq_x e; eq_z := eq_z e; eq_psi := map (fun p => k * p + b) (eq_psi e); psimag := k * psimag e + b;
     psibdry := k * psibdry e + b; xmag := xmag e; zmag := zmag e; bdry := bdry e |}.
(** A spline through values transformed by an affine map is the transformed spline. *)
Definition affine_spline (spline : list R -> list R -> list R -> R * R -> R) : Prop :=
  forall xs zs psi k b p, psi <> [] -> spline xs zs (map (fun v => k * v + b) psi) p = k * spline xs zs psi p + b.
(** What a user sees of an EQDSK flux map besides the unused flux value stored with the O-point. *)
Definition view (m : fluxmap) : surface * (R * R) * option (list R * list R * list R * (R * R)) :=
  (map_lcfs m, (op_x (map_o_point m), op_z (map_o_point m)),
   match map_interp m with
   | IGrid g => Some (gi_x g, gi_z g, gi_psi_norm g, (op_x (gi_o_point g), op_z (gi_o_point g)))
   | IParam _ => None
   end).
