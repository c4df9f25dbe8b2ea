(** Model of the polygon helpers of /repo/tokamak_neutron_source/tools.py:214-296 and of the closed
    surfaces of /repo/tokamak_neutron_source/flux.py:42-138. The coordinate arrays x and z, which always have
    one length, are one list of points. numba-compiled code is modelled as the same Python code (numba
    leaves the index -1 of an empty array unchecked where Python raises; the surfaces below are never empty). *)
From Verif Require Import Base.

Notation pt := (R * R)%type (only parsing).

(** The loop "for n in range(len(x) - 1): a += f(n, n + 1)". *)
Fixpoint edge_sum (f : pt -> pt -> R) (l : list pt) : R :=
  match l with
  | p :: ((q :: _) as r) => f p q + edge_sum f r
  | _ => 0
  end.

(** check_ccw, tools.py:214-234. *)
Definition check_ccw (l : list pt) : bool :=
  Rltb (edge_sum (fun p q => (fst q - fst p) * (snd q + snd p)) l) 0.

(** np.append(x[-1], x[:-1]) *)
Definition roll (l : list R) : list R := match l with [] => [] | _ => last l 0 :: removelast l end.

(** get_area_2d, tools.py:237-260. *)
Definition get_area_2d (l : list pt) : res R :=
  match l with
  | [] => Err EIndex
  | _ => let x := map fst l in let y := map snd l in
         Ok (0.5 * Rabs (dot x (roll y) - dot y (roll x)))
  end.

(** get_centroid_2d, tools.py:263-296. *)
Definition get_centroid_2d (l : list pt) : res pt :=
  let l := if check_ccw l then l else rev l in
  do area <- get_area_2d l;
  let cx := edge_sum (fun p q => (fst p + fst q) * (fst p * snd q - fst q * snd p)) l in
  let cz := edge_sum (fun p q => (snd p + snd q) * (fst p * snd q - fst q * snd p)) l in
  Ok (if Reqb area 0 then (cx, cz) else (cx / (6 * area), cz / (6 * area))).

(** np.isclose(a, b, rtol=0.0, atol=abs_tol) and is_closed, flux.py:42-48. *)
Definition isclose (tol a b : R) : bool := Rleb (Rabs (a - b)) tol.
Definition is_closed (l : list pt) : res bool :=
  match l with
  | [] => Err EIndex
  | p :: r => let q := last r p in Ok (isclose 1e-12 (fst p) (fst q) && isclose 1e-12 (snd p) (snd q))
  end.

(** ClosedFluxSurface (flux.py:51-94) or FluxRing (flux.py:97-138). *)
Inductive surface := SClosed (pts : list pt) | SRing (p : pt).

(** ClosedFluxSurface.__init__, flux.py:54-58. *)
Definition closed_flux_surface (l : list pt) : res surface :=
  do c <- is_closed l;
  if c then Ok (SClosed l) else Err EFluxSurface.

(** The x and z attributes, flux.py:57-58 and 100-102. *)
Definition points (s : surface) : list pt := match s with SClosed l => l | SRing p => [p] end.
(** center_of_mass, flux.py:60-70 and 104-114 (a ring returns its coordinates as 1-element arrays). *)
Definition center_of_mass (s : surface) : res pt := match s with SClosed l => get_centroid_2d l | SRing p => Ok p end.
(** area, flux.py:72-82 and 116-126. *)
Definition area (s : surface) : res R := match s with SClosed l => get_area_2d l | SRing _ => Ok 0 end.
(** volume, flux.py:84-94 and 128-138. *)
Definition volume (s : surface) : res R :=
  match s with
  | SClosed _ => do a <- area s; do c <- center_of_mass s; Ok (2 * PI * a * fst c)
  | SRing _ => Ok 0
  end.
