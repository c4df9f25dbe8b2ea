(** Model of /repo/tokamak_neutron_source/energy.py:32-265 and /repo/tokamak_neutron_source/energy_data.py:82-196 in IEEE binary64, the arithmetic
    numpy and Python really use. Energy.v models the same functions with exact numbers. The tabulated T-T spectrum is in FloatTT.v. *)
From Coq Require Import ZArith List Bool.
From Flocq Require Import IEEE754.BinarySingleNaN.
From Verif Require Import Base Reactions Energy FloatComp FloatSource FloatSpace FloatReactivity.

(** np.linspace(start, stop, n) for n >= 2 (numpy/_core/function_base.py): arange(n) * step + start with step = (stop - start) / (n - 1), or
    arange(n) / (n - 1) * (stop - start) + start if that step is zero, and the last element replaced by stop. *)
Definition linspace64 (start stop : f64) (n : nat) : list f64 :=
  let delta := fsub stop start in
  let div := f64_of_Z (Z.of_nat (n - 1)) in
  let step := fdiv delta div in
  map (fun i => if Nat.eqb i (n - 1) then stop
                else let x := f64_of_Z (Z.of_nat i) in
                     fadd (if Beqb step f0 then fmul (fdiv x div) delta else fmul x step) start) (seq 0 n).

(** np.nonzero(vec)[0], energy.py:260: a NaN is not zero. *)
Fixpoint nonzero_from64 (i : nat) (l : list f64) : list nat :=
  match l with [] => [] | x :: r => if Beqb x f0 then nonzero_from64 (S i) r else i :: nonzero_from64 (S i) r end.
(** _trim_zero_mask, energy.py:240-265. *)
Definition trim_zero_mask64 (vec : list f64) : res (list bool) :=
  match nonzero_from64 0 vec with
  | [] => Err EEnergySpectrum
  | i :: r => let stop := S (last r i) in
              Ok (map (fun k => Nat.leb i k && Nat.ltb k stop) (seq 0 (length vec)))
  end.
(** The summands d * (y[1:] + y[:-1]) / 2.0 of np.trapezoid, d = x[1:] - x[:-1]. *)
Fixpoint panels64 (x y : list f64) : list f64 :=
  match x, y with
  | x0 :: ((x1 :: _) as xr), y0 :: ((y1 :: _) as yr) => fdiv (fmul (fsub x1 x0) (fadd y1 y0)) f2 :: panels64 xr yr
  | _, _ => []
  end.

(** BallabioCoefficients and BallabioEnergySpectrum, energy_data.py:82-92, 117-133. *)
Record ballabio_coeffs64 := { a1_64 : f64; a2_64 : f64; a3_64 : f64; a4_64 : f64 }.
Record ballabio64 := { energy_0_64 : f64; omega_0_64 : f64; shift64 : ballabio_coeffs64; width64 : ballabio_coeffs64 }.
(** BALLABIO_DT_NEUTRON, energy_data.py:164-179. *)
Definition ballabio64_DT : ballabio64 :=
  {| energy_0_64 := f64_of_Z 14021; omega_0_64 := dec64 177259 3;
     shift64 := {| a1_64 := dec64 530509 5; a2_64 := dec64 24736 7; a3_64 := dec64 184 2; a4_64 := dec64 13818 4 |};
     width64 := {| a1_64 := dec64 51068 8; a2_64 := dec64 76223 7; a3_64 := dec64 178 2; a4_64 := dec64 87691 9 |} |}.
(** BALLABIO_DD_NEUTRON, energy_data.py:181-196. *)
Definition ballabio64_DD : ballabio64 :=
  {| energy_0_64 := dec64 24495 1; omega_0_64 := dec64 82542 3;
     shift64 := {| a1_64 := dec64 469515 5; a2_64 := dec64 (-40729) 6; a3_64 := dec64 47 2; a4_64 := dec64 81844 5 |};
     width64 := {| a1_64 := dec64 17013 7; a2_64 := dec64 16888 5; a3_64 := dec64 49 2; a4_64 := dec64 79460 8 |} |}.
(** ReactionData.ballabio_spectrum, reactions.py:93, 101, 109, 122, 130. *)
Definition ballabio_spectrum64 (r : reaction) : option ballabio64 :=
  match r with DT => Some ballabio64_DT | DDn => Some ballabio64_DD | TT => None | DDp => None | DHe3 => None end.
(** TWO_SQRT_2LN2 = 2.3548200450309493, energy_data.py:24. *)
Definition f_fwhm : f64 := binary_normalize 53 1024 Hprec64 Hmax64 mode_NE 5302583338662979 (-51) false.

Section Libm.
  (** The power of Python floats and numpy scalars. *)
  Variable spow : f64 -> f64 -> f64.
  (** numpy's exp at position i of an array. *)
  Variable vexp : nat -> f64 -> f64.
  (** np.sum of an array: numpy chooses the order. *)
  Variable np_sum : list f64 -> f64.

  (** _prepare_energy_pdf, energy.py:212-237; trapezoid is np.trapezoid or np.trapz, tools.py:27. *)
  Definition prepare_energy_pdf64 (energy pdf : list f64) : res (list f64 * list f64) :=
    do mask <- trim_zero_mask64 pdf;
    let pdf := masked pdf mask in
    let energy := masked energy mask in
    let total := np_sum (panels64 energy pdf) in
    Ok (energy, map (fun p => fdiv p total) pdf).

  (** BallabioCoefficients.fit, energy_data.py:93-114. *)
  Definition fit64 (c : ballabio_coeffs64) (T : f64) : f64 :=
    fadd (fmul (fdiv (a1_64 c) (fadd f1 (fmul (a2_64 c) (spow T (a3_64 c))))) (spow T (fdiv f2 (f64_of_Z 3)))) (fmul (a4_64 c) T).
  (** BallabioEnergySpectrum.mean_energy and std_deviation, energy_data.py:147-161. *)
  Definition mean_energy64 (b : ballabio64) (T : f64) : f64 := fadd (energy_0_64 b) (fit64 (shift64 b) T).
  Definition std_deviation64 (b : ballabio64) (T : f64) : f64 :=
    fdiv (fmul (fmul (omega_0_64 b) (fadd f1 (fit64 (width64 b) T))) (fsqrt T)) f_fwhm.

  (** np.linspace(mu - 6 * sigma, mu + 6 * sigma, 1000), energy.py:170 and 198. *)
  Definition energies64 (mu sigma : f64) : list f64 :=
    linspace64 (fsub mu (fmul (f64_of_Z 6) sigma)) (fadd mu (fmul (f64_of_Z 6) sigma)) 1000.
  (** _gaussian_energy_spectrum, energy.py:170-174: the square of an array is a product, that of a scalar a power. *)
  Definition gaussian_energy_spectrum64 (mu sigma : f64) : res (list f64 * list f64) :=
    let energy := energies64 mu sigma in
    let norm := fdiv f1 (fmul sigma (fsqrt (fmul f2 f_pi))) in
    let var2 := fmul f2 (spow sigma f2) in
    let pdf := map2 (fun i e => fmul norm (vexp i (fdiv (Bopp (fmul (fsub e mu) (fsub e mu))) var2))) (seq 0 (length energy)) energy in
    prepare_energy_pdf64 energy pdf.
  (** _modified_gaussian_energy_spectrum, energy.py:198-209. *)
  Definition modified_gaussian_energy_spectrum64 (mu sigma : f64) : res (list f64 * list f64) :=
    let energy := energies64 mu sigma in
    let factor := fsub f1 (fmul (dec64 15 1) (spow (fdiv sigma mu) f2)) in
    let sqrt_factor := fsqrt factor in
    let e_bar := fmul mu sqrt_factor in
    let sigma_sq := fmul (fmul (fdiv (f64_of_Z 4) (f64_of_Z 3)) (spow mu f2)) (fsub sqrt_factor factor) in
    let pdf := map2 (fun i e => let d := fsub (fsqrt e) (fsqrt e_bar) in
                                vexp i (fdiv (fmul (fmul (f64_of_Z (-2)) e_bar) (fmul d d)) sigma_sq)) (seq 0 (length energy)) energy in
    prepare_energy_pdf64 energy pdf.
  (** energy_spectrum, energy.py:32-80, with _ballabio_spectrum, energy.py:113-147, for the reactions with a Ballabio
      fit (for these _data_spectrum, energy.py:107-110, raises NotImplementedError); None for the others (see FloatTT.v). *)
  Definition energy_spectrum64 (T : f64) (r : reaction) (meth : spectrum_method) : option (res (list f64 * list f64)) :=
    match ballabio_spectrum64 r with
    | None => None
    | Some b =>
        match meth with
        | SGaussian => Some (gaussian_energy_spectrum64 (mean_energy64 b T) (std_deviation64 b T))
        | SMGaussian | SAuto => Some (modified_gaussian_energy_spectrum64 (mean_energy64 b T) (std_deviation64 b T))
        | SData => Some (Err ENotImplemented)
        end
    end.
End Libm.
