(** Model of /repo/tokamak_neutron_source/reactivity.py:234-265 (_reactivity_from_xs) in IEEE binary64, the arithmetic numpy really uses, for the
    cross section object of reactivity_data.py:18-60 (a scipy interp1d and a reduced mass). Reactivity.v models the same function with exact numbers,
    and the reading of the cross section files; that reading is not modelled in binary64. *)
From Coq Require Import ZArith List Bool.
From Flocq Require Import IEEE754.BinarySingleNaN.
From Verif Require Import Base FloatComp FloatSource FloatSpace FloatProfile FloatReactivity Energy FloatEnergy.
Import ListNotations.

(** A ReactionCrossSection: the sorted table of energies (keV) and cross sections (m^2), and the reduced mass (kg). *)
Record xsection64 := { xs_tab64 : list (f64 * f64); xs_mass64 : f64 }.

(** The exponent 1.5. *)
Definition f_3_2 : f64 := binary_normalize 53 1024 Hprec64 Hmax64 mode_NE 3 (-1) false.

Section Libm.
  (** Does scipy's compiled interpolation fuse multiplication and addition? *)
  Variable fused : bool.
  (** numpy's power and exp at position i of an array; np.sum of an array: numpy chooses the order. *)
  Variables (vpow : nat -> f64 -> f64 -> f64) (vexp : nat -> f64 -> f64) (np_sum : list f64 -> f64).
  (** The factor pint finds for keV -> J (constants.py:248-281). *)
  Variable kev_J : f64.

  (** np.logspace(0, 3, 1000) = np.power(10.0, np.linspace(0, 3, 1000)), line 257. *)
  Definition t_grid_kev64 : list f64 := map2 (fun i y => vpow i (f64_of_Z 10) y) (seq 0 1000) (linspace64 f0 (f64_of_Z 3) 1000).
  (** Line 258. *)
  Definition t_grid_j64 : list f64 := map (fun e => fmul e kev_J) t_grid_kev64.

  (** Lines 255, 260-264 for row j of temp_j: s are the cross sections on the grid. *)
  Definition xs_row64 (mu : f64) (s : list f64) (j : nat) (T : f64) : f64 :=
    let temp_j := fmul T kev_J in
    let factor := fdiv (fdiv (f64_of_Z 4) (fsqrt (fmul (fmul f2 f_pi) mu))) (vpow j temp_j f_3_2) in
    let integrand := map2 (fun i st => fmul (fmul (fmul factor (fst st)) (snd st)) (vexp (j * 1000 + i) (fdiv (Bopp (snd st)) temp_j)))
                          (seq 0 1000) (combine s t_grid_j64) in
    np_sum (panels64 t_grid_j64 integrand).

  (** The whole function: the result is an array, one number for each temperature. An energy outside the table is a ValueError. *)
  Definition reactivity_from_xs64 (temps : list f64) (xs : xsection64) : res (list f64) :=
    do s <- mapM (interp1d_call64 fused (xs_tab64 xs)) t_grid_kev64;
    Ok (map2 (xs_row64 (xs_mass64 xs) s) (seq 0 (length temps)) temps).
End Libm.
