(** Model of the tabulated T-T spectrum, /repo/tokamak_neutron_source/energy_data.py:27-76, and of the dispatch of
    /repo/tokamak_neutron_source/energy.py:32-110 in IEEE binary64. Energy.v models the same functions with exact numbers. Log messages are left out here
    (C49 and C50 are about them). *)
From Coq Require Import ZArith List Bool.
From Flocq Require Import IEEE754.BinarySingleNaN.
From Verif Require Import Base Reactions Energy FloatComp FloatSource FloatSpace FloatProfile FloatReactivity FloatEnergy.

(** The attributes of TTNeutronEnergyDataSpectrum, energy_data.py:52-64. *)
Record tt_data64 := { tt_energy64 : list f64; tt_temps64 : list f64; tt_spectra64 : list (list f64) }.
(** TTNeutronEnergyDataSpectrum.__init__, energy_data.py:47-64. [rows] is what np.genfromtxt reads from the file: the first column and the others;
    [mev] and [per_mev] are the factors by which pint multiplies for MeV to keV and 1/MeV to 1/keV. *)
Definition make_tt64 (mev per_mev : f64) (rows : list (f64 * list f64)) : tt_data64 :=
  {| tt_energy64 := map (fun row => fmul (fst row) mev) rows;
     tt_temps64 := linspace64 f1 (f64_of_Z 20) 40;
     tt_spectra64 := map (fun row => map (fun x => fmul x per_mev) (snd row)) rows |}.

(** RegularGridInterpolator(method="linear", bounds_error=True), energy_data.py:58-64 and 76. *)
(** scipy.interpolate._poly_common.find_interval_ascending for a value inside the grid: the k with grid[k] <= x < grid[k + 1], the last interval being
    closed. (scipy finds it by bisection.) *)
Fixpoint interval_from64 (k : nat) (grid : list f64) (x : f64) : nat :=
  match grid with
  | _ :: ((b :: _ :: _) as r) => if Bltb x b then k else interval_from64 (S k) r x
  | _ => k
  end.
(** The normalised distance of scipy.interpolate._rgi_cython.find_indices. *)
Definition norm_distance64 (grid : list f64) (k : nat) (x : f64) : f64 :=
  fdiv (fsub x (nth k grid f0)) (fsub (nth (S k) grid f0) (nth k grid f0)).
(** The sum of scipy.interpolate._rgi_cython.evaluate_linear_2d. *)
Definition bilinear64 (v : nat -> nat -> f64) (i j : nat) (y0 y1 : f64) : f64 :=
  let s := fadd f0 (fmul (fmul (v i j) (fsub f1 y0)) (fsub f1 y1)) in
  let s := fadd s (fmul (fmul (v i (S j)) (fsub f1 y0)) y1) in
  let s := fadd s (fmul (fmul (v (S i) j) y0) (fsub f1 y1)) in
  fadd s (fmul (fmul (v (S i) (S j)) y0) y1).
Definition grid_value64 (d : tt_data64) (e T : f64) : f64 :=
  let i := interval_from64 0 (tt_energy64 d) e in
  let j := interval_from64 0 (tt_temps64 d) T in
  bilinear64 (fun i j => nth j (nth i (tt_spectra64 d) []) f0) i j (norm_distance64 (tt_energy64 d) i e) (norm_distance64 (tt_temps64 d) j T).
(** np.all(grid[0] <= x) and np.all(x <= grid[-1]). *)
Definition inside64 (grid : list f64) (x : f64) : bool := Bleb (hd f0 grid) x && Bleb x (last grid f0).
(** TTNeutronEnergyDataSpectrum.__call__, energy_data.py:66-76. *)
Definition tt_call64 (d : tt_data64) (T : f64) : res (list f64 * list f64) :=
  let T := if Bltb f1 T && Bltb T (f64_of_Z 20) then T else clip64 f1 (f64_of_Z 20) T in
  if forallb (inside64 (tt_energy64 d)) (tt_energy64 d) && inside64 (tt_temps64 d) T
  then Ok (tt_energy64 d, map (fun e => grid_value64 d e T) (tt_energy64 d))
  else Err EValue.

Section Libm.
  Variable spow : f64 -> f64 -> f64.
  Variable vexp : nat -> f64 -> f64.
  Variable np_sum : list f64 -> f64.
  Variable d : tt_data64.
  (** _data_spectrum, energy.py:83-110. *)
  Definition data_spectrum64 (r : reaction) (T : f64) : res (list f64 * list f64) :=
    match r with
    | TT => do t <- tt_call64 d T; prepare_energy_pdf64 np_sum (fst t) (snd t)
    | _ => Err ENotImplemented
    end.
  (** energy_spectrum, energy.py:32-80; None is Python's None, returned when no case of the inner match applies. *)
  Definition energy_spectrum_full64 (T : f64) (r : reaction) (meth : spectrum_method) : option (res (list f64 * list f64)) :=
    match meth with
    | SGaussian | SMGaussian =>
        match ballabio_spectrum64 r with
        | Some _ => energy_spectrum64 spow vexp np_sum T r meth
        | None => Some (data_spectrum64 r T)
        end
    | SData => Some (data_spectrum64 r T)
    | SAuto =>
        match r with
        | DDn | DT => energy_spectrum64 spow vexp np_sum T r SMGaussian
        | TT => Some (data_spectrum64 r T)
        | DDp | DHe3 => None
        end
    end.
End Libm.
