(** Model of /repo/tokamak_neutron_source/flux.py:141-843 and of load_eqdsk, tools.py:72-102.
    Closed surfaces themselves are in Geometry.v. *)
From Verif Require Import Base Profile Geometry.

(** FluxPoint, flux.py:33-39. *)
Record flux_point := { op_x : R; op_z : R; op_psi : R }.

(** LCFSInformation, flux.py:141-188, as it is after __post_init__. *)
Record lcfs_info := {
  r_0 : R; z_0 : R; aspect_ratio : R; kappa : R; delta : R; shafranov_shift : R; squareness : R; minor_radius : R }.

(** LCFSInformation.__post_init__, flux.py:169-188. *)
Definition make_lcfs_info (r0 z0 asp kap del shift sq : R) : res lcfs_info :=
  if Rleb r0 0 then Err EFluxSurface
  else if Rleb asp 1 then Err EFluxSurface
  else if Rltb kap 1 then Err EFluxSurface
  else if negb (Rleb (-1) del && Rleb del 1) then Err EFluxSurface
  else
    let a := r0 / asp in
    if Rleb a (Rabs shift) then Err EFluxSurface
    else Ok {| r_0 := r0; z_0 := z0; aspect_ratio := asp; kappa := kap; delta := del;
               shafranov_shift := Rabs shift; squareness := sq; minor_radius := a |}.

(** find_flux_surf, flux.py:226-291. get_contours (contourpy) is an oracle: [surfs] is the list of polylines
    it returns. Each is an array of at least one point; np.mean of an empty one would be nan. *)
Definition mean (l : list R) : res R := np_div (pysum l) (INR (length l)).
Definition f_min (o : flux_point) (group : list (R * R)) : res R :=
  do mx <- mean (map fst group);
  do mz <- mean (map snd group);
  Ok ((mx - op_x o) ^ 2 + (mz - op_z o) ^ 2).
(** np.argmin: the index of the first smallest element. *)
Fixpoint argmin_from (best : R) (ibest i : nat) (l : list R) : nat :=
  match l with
  | [] => ibest
  | e :: l' => if Rltb e best then argmin_from e i (S i) l' else argmin_from best ibest (S i) l'
  end.
Definition argmin (l : list R) : res nat :=
  match l with [] => Err EValue | e :: l' => Ok (argmin_from e 0 1 l') end.
Definition find_flux_surf (surfs : list (list (R * R))) (o : flux_point) : res (list (R * R)) :=
  match surfs with
  | [] => Err EFluxSurface
  | _ =>
      do err <- mapM (f_min o) surfs;
      do i <- argmin err;
      match nth_error surfs i with Some g => Ok g | None => Err EIndex end
  end.

(** interpolate_flux_surface, flux.py:294-310. *)
Definition hypot (x y : R) : R := sqrt (x * x + y * y).
Fixpoint seg_lengths (l : list (R * R)) : list R :=
  match l with
  | p :: ((q :: _) as r) => hypot (fst q - fst p) (snd q - snd p) :: seg_lengths r
  | _ => []
  end.
Fixpoint cumsum (a : R) (l : list R) : list R := match l with [] => [] | x :: l' => (a + x) :: cumsum (a + x) l' end.
Definition interpolate_flux_surface (l : list (R * R)) (n_points : nat) : res (list (R * R)) :=
  let s := 0 :: cumsum 0 (seg_lengths l) in
  if negb (Nat.eqb (length s) (length l)) then Err EValue   (* interp1d: an empty polyline *)
  else
    let fx := interp1d_call (sort_pairs (combine s (map fst l))) in
    let fz := interp1d_call (sort_pairs (combine s (map snd l))) in
    let s_uniform := linspace_open 0 (last s 0) n_points in
    do x_new <- mapM fx s_uniform;
    do z_new <- mapM fz s_uniform;
    match x_new, z_new with
    | x :: _, z :: _ => Ok (combine (x_new ++ [x]) (z_new ++ [z]))
    | _, _ => Err EIndex
    end.

(** FluxSurfaceParameterisation objects, flux.py:313-385. *)
Inductive parameterisation := Fausser (i : lcfs_info) | Sauter (i : lcfs_info).
Definition info (p : parameterisation) : lcfs_info := match p with Fausser i => i | Sauter i => i end.

(** FausserFluxSurface._single_flux_surface, flux.py:355-368: the point at angle alpha. *)
Definition fausser_point (i : lcfs_info) (psi alpha : R) : R * R :=
  let a := psi * r_0 i / aspect_ratio i in
  (r_0 i + a * cos (alpha + delta i * sin alpha) + Rabs (shafranov_shift i) * (1 - psi ^ 2),
   z_0 i + a * kappa i * sin alpha).
(** SauterFluxSurface._single_flux_surface, flux.py:374-385. *)
Definition sauter_point (i : lcfs_info) (psi alpha : R) : R * R :=
  let a := psi * minor_radius i in
  (r_0 i + a * cos (alpha + delta i * sin alpha) - squareness i * sin (2 * alpha),
   z_0 i + kappa i * a * sin (alpha + squareness i * sin (2 * alpha))).
Definition single_flux_surface (p : parameterisation) (psi : R) (n_points : nat) : res surface :=
  let alpha := linspace 0 (2 * PI) n_points in
  closed_flux_surface (map (match p with Fausser i => fausser_point i psi | Sauter i => sauter_point i psi end) alpha).
(** flux_surface for a scalar or for an iterable, flux.py:319-341. *)
Definition flux_surface := single_flux_surface.
Definition flux_surfaces (p : parameterisation) (psis : list R) (n_points : nat) : res (list surface) :=
  mapM (fun psi => single_flux_surface p psi n_points) psis.

(** FluxConvention, flux.py:388-395. *)
Inductive convention := LINEAR | SQRT.

(** normalise_psi, flux.py:398-427 (np.clip with no upper limit is a maximum with 0). *)
Definition normalise_psi (psi : list R) (axis_psi boundary_psi : R) (c : convention) : res (list R) :=
  do n <- mapM (fun p => np_div (axis_psi - p) (axis_psi - boundary_psi)) psi;
  let n := map (fun x => Rmax x 0) n in
  match c with LINEAR => Ok n | SQRT => mapM np_sqrt n end.

(** ** FluxInterpolator objects, flux.py:430-686. *)

(** ParameterisationInterpolator.__init__, flux.py:600-638. Its attributes; the Clough-Tocher interpolator is
    built from the nodes x, z and their psi_norm and is an oracle. *)
Record param_interp := {
  pi_param : parameterisation; pi_n_points : nat; pi_nodes : list (R * R); pi_psi_norm : list R; pi_o_point : flux_point }.
Definition make_param_interp (p : parameterisation) (o : flux_point) (rho : list R) (n_points : nat) (c : convention)
  : res param_interp :=
  let rho := filter (fun r => Rltb 0 r) rho in
  do fs <- flux_surfaces p rho n_points;
  match fs with
  | [] => Err EValue                                     (* np.concatenate of no arrays *)
  | _ =>
      let nodes := concat (map points fs) in
      let psi := concat (map (fun r => repeat (1 - r) n_points) rho) in
      do psi_norm <- normalise_psi (1.0 :: psi) 1.0 0.0 c;
      Ok {| pi_param := p; pi_n_points := n_points; pi_nodes := (op_x o, op_z o) :: nodes;
            pi_psi_norm := psi_norm; pi_o_point := o |}
  end.
(** ParameterisationInterpolator.get_flux_surface, flux.py:658-678. *)
Definition param_get_flux_surface (it : param_interp) (psi : R) (n_points : option nat) : res surface :=
  flux_surface (pi_param it) psi (match n_points with None => pi_n_points it | Some n => n end).

(** EQDSKFluxInterpolator, flux.py:509-542: the grid, the normalised flux on it and the O-point. The contours
    of the grid and the spline through it are oracles. *)
Record grid_interp := { gi_x : list R; gi_z : list R; gi_psi_norm : list R; gi_o_point : flux_point }.
(** EQDSKFluxInterpolator.get_flux_surface, flux.py:544-569. *)
Definition grid_get_flux_surface (contours : list R -> list R -> list R -> R -> list (list (R * R)))
    (it : grid_interp) (psi : R) (n_points : option nat) : res surface :=
  let psi := clip 0 1 psi in
  if Reqb psi 0 then Ok (SRing (op_x (gi_o_point it), op_z (gi_o_point it)))
  else
    do pts <- find_flux_surf (contours (gi_x it) (gi_z it) (gi_psi_norm it) psi) (gi_o_point it);
    match n_points with
    | None => closed_flux_surface pts
    | Some n => do pts <- interpolate_flux_surface pts n; closed_flux_surface pts
    end.

Inductive interpolator := IParam (it : param_interp) | IGrid (it : grid_interp).
(** FluxMap, flux.py:689-700. *)
Record fluxmap := { map_lcfs : surface; map_o_point : flux_point; map_interp : interpolator }.

Section Oracles.
  (** contourpy's contour lines of a grid at a value, and scipy's RectBivariateSpline through a grid. *)
  Variable contours : list R -> list R -> list R -> R -> list (list (R * R)).
  Variable spline : list R -> list R -> list R -> R * R -> R.

  Definition interp_get_flux_surface (it : interpolator) (psi : R) (n : option nat) : res surface :=
    match it with IParam i => param_get_flux_surface i psi n | IGrid i => grid_get_flux_surface contours i psi n end.
  (** FluxMap.get_flux_surface, flux.py:804-824, for a scalar and for an iterable. *)
  Definition get_flux_surface (m : fluxmap) (psi : R) (n : option nat) : res surface :=
    interp_get_flux_surface (map_interp m) psi n.
  Definition get_flux_surfaces (m : fluxmap) (psis : list R) (n : option nat) : res (list surface) :=
    mapM (fun p => interp_get_flux_surface (map_interp m) p n) psis.
  (** FluxMap.volume, flux.py:826-843. *)
  Definition map_volume (m : fluxmap) (psi : R) : res R := do s <- get_flux_surface m psi None; volume s.
  Definition map_volumes (m : fluxmap) (psis : list R) : res (list R) :=
    do fs <- get_flux_surfaces m psis None; mapM volume fs.

  (** The EQDSKInterface fields that are used; psi is the grid of fluxes, flattened. *)
  Record eqdsk := {
    eq_x : list R; eq_z : list R; eq_psi : list R; psimag : R; psibdry : R; xmag : R; zmag : R; bdry : list (R * R) }.
  (** load_eqdsk of an EQDSKInterface object, tools.py:95-102: the object is changed in place and returned. *)
  Definition load_eqdsk (e : eqdsk) : eqdsk :=
    if Rltb (psimag e) (psibdry e) then
      let offset := psimag e in
      {| eq_x := eq_x e; eq_z := eq_z e; eq_psi := map (fun p => offset - p) (eq_psi e); psimag := 0.0;
         psibdry := offset - psibdry e; xmag := xmag e; zmag := zmag e; bdry := bdry e |}
    else e.
  (** FluxMap.from_eqdsk, flux.py:702-742. Returns the map; the EQDSK object is left as [load_eqdsk e]. *)
  Definition from_eqdsk (e : eqdsk) (c : convention) : res fluxmap :=
    let eq := load_eqdsk e in
    do lcfs <- closed_flux_surface (bdry eq);
    let o := {| op_x := xmag eq; op_z := zmag eq; op_psi := psimag eq |} in
    do boundary_psi <- np_min (map (spline (eq_x eq) (eq_z eq) (eq_psi eq)) (points lcfs));
    do psi_norm <- normalise_psi (eq_psi eq) (psimag eq) boundary_psi c;
    Ok {| map_lcfs := lcfs; map_o_point := o;
          map_interp := IGrid {| gi_x := eq_x eq; gi_z := eq_z eq; gi_psi_norm := psi_norm; gi_o_point := o |} |}.
End Oracles.

(** FluxMap.from_parameterisation, flux.py:744-784. *)
Definition from_parameterisation (p : parameterisation) (rho : list R) (n_points : nat) (c : convention) : res fluxmap :=
  do lcfs <- flux_surface p 1.0 n_points;
  let o := {| op_x := r_0 (info p) + shafranov_shift (info p); op_z := z_0 (info p); op_psi := 0.0 |} in
  do it <- make_param_interp p o rho n_points c;
  Ok {| map_lcfs := lcfs; map_o_point := o; map_interp := IParam it |}.
