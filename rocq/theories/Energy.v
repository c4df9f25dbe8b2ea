(** Model of /repo/tokamak_neutron_source/energy.py and /repo/tokamak_neutron_source/energy_data.py. *)
From Coq Require Import NArith.
From Verif Require Import Base Reactions Profile SpectraData.

(** EnergySpectrumMethod, energy.py:23-29. *)
Inductive spectrum_method := SData | SGaussian | SMGaussian | SAuto.

(** Messages logged with logger.warning. *)
Inductive swarning :=
| WNoBallabio (r : reaction)       (* energy.py:64-68 *)
| WTTClip (T : R).                 (* energy_data.py:69-74 *)

(** ** Trimming and normalising *)

(** np.nonzero(vec)[0], energy.py:260: the indices of the non-zero entries. *)
Fixpoint nonzero_from (i : nat) (l : list R) : list nat :=
  match l with [] => [] | x :: r => if Reqb x 0 then nonzero_from (S i) r else i :: nonzero_from (S i) r end.
(** _trim_zero_mask, energy.py:240-265: the mask, which is True on the slice nz[0] : nz[-1] + 1. *)
Definition trim_zero_mask (vec : list R) : res (list bool) :=
  match nonzero_from 0 vec with
  | [] => Err EEnergySpectrum
  | i :: r => let stop := S (last r i) in
              Ok (map (fun k => Nat.leb i k && Nat.ltb k stop) (seq 0 (length vec)))
  end.
(** vec[mask] for a mask of the same length. *)
Definition masked {A} (l : list A) (mask : list bool) : list A := map fst (filter snd (combine l mask)).
(** _prepare_energy_pdf, energy.py:212-237. *)
Definition prepare_energy_pdf (energy pdf : list R) : res (list R * list R) :=
  do mask <- trim_zero_mask pdf;
  let pdf := masked pdf mask in
  let energy := masked energy mask in
  do probability <- mapM (fun p => np_div p (trapezoid pdf energy)) pdf;
  Ok (energy, probability).

(** ** Ballabio fits *)

(** BallabioCoefficients and BallabioEnergySpectrum, energy_data.py:82-92, 117-133. *)
Record ballabio_coeffs := { a1 : R; a2 : R; a3 : R; a4 : R }.
Record ballabio := { energy_0 : R; omega_0 : R; energy_shift_coeffs : ballabio_coeffs; width_correction_coeffs : ballabio_coeffs }.
(** BALLABIO_DT_NEUTRON, energy_data.py:164-179. *)
Definition ballabio_DT : ballabio :=
  {| energy_0 := 14021.0; omega_0 := 177.259;
     energy_shift_coeffs := {| a1 := 5.30509; a2 := 2.4736e-3; a3 := 1.84; a4 := 1.3818 |};
     width_correction_coeffs := {| a1 := 5.1068e-4; a2 := 7.6223e-3; a3 := 1.78; a4 := 8.7691e-5 |} |}.
(** BALLABIO_DD_NEUTRON, energy_data.py:181-196. *)
Definition ballabio_DD : ballabio :=
  {| energy_0 := 2.4495e3; omega_0 := 82.542;
     energy_shift_coeffs := {| a1 := 4.69515; a2 := -0.040729; a3 := 0.47; a4 := 0.81844 |};
     width_correction_coeffs := {| a1 := 1.7013e-3; a2 := 0.16888; a3 := 0.49; a4 := 7.9460e-4 |} |}.
(** ReactionData.ballabio_spectrum, reactions.py:93, 101, 109, 122, 130. *)
Definition ballabio_spectrum (r : reaction) : option ballabio :=
  match r with DT => Some ballabio_DT | DDn => Some ballabio_DD | TT => None | DDp => None | DHe3 => None end.

(** BallabioCoefficients.fit, energy_data.py:93-114. *)
Definition fit (c : ballabio_coeffs) (T : R) : res R :=
  do p <- np_pow T (a3 c);
  do q <- np_div (a1 c) (1 + a2 c * p);
  do s <- np_pow T (2 / 3);
  Ok (q * s + a4 c * T).
(** BallabioEnergySpectrum.mean_energy and std_deviation, energy_data.py:147-161. *)
Definition two_sqrt_2ln2 : R := 2.3548200450309493.
Definition mean_energy (b : ballabio) (T : R) : res R :=
  do s <- fit (energy_shift_coeffs b) T; Ok (energy_0 b + s).
Definition std_deviation (b : ballabio) (T : R) : res R :=
  do w <- fit (width_correction_coeffs b) T;
  do r <- np_sqrt T;
  np_div (omega_0 b * (1 + w) * r) two_sqrt_2ln2.

(** _gaussian_energy_spectrum, energy.py:150-174. *)
Definition gaussian_energy_spectrum (mu sigma : R) : res (list R * list R) :=
  let energy := linspace (mu - 6 * sigma) (mu + 6 * sigma) 1000 in
  do norm <- np_div 1 (sigma * sqrt (2 * PI));
  do pdf <- mapM (fun e => do x <- np_div (- (e - mu) ^ 2) (2 * sigma ^ 2); Ok (norm * exp x)) energy;
  prepare_energy_pdf energy pdf.
(** _modified_gaussian_energy_spectrum, energy.py:177-209. *)
Definition modified_gaussian_energy_spectrum (mu sigma : R) : res (list R * list R) :=
  let energy := linspace (mu - 6 * sigma) (mu + 6 * sigma) 1000 in
  do ratio <- np_div sigma mu;
  let factor := 1.0 - 1.5 * ratio ^ 2 in
  do sqrt_factor <- np_sqrt factor;
  let e_bar := mu * sqrt_factor in
  let sigma_sq := 4.0 / 3.0 * mu ^ 2 * (sqrt_factor - factor) in
  do pdf <- mapM (fun e =>
      do re <- np_sqrt e;
      do rb <- np_sqrt e_bar;
      do x <- np_div (-2.0 * e_bar * (re - rb) ^ 2) sigma_sq;
      Ok (exp x)) energy;
  prepare_energy_pdf energy pdf.
(** _ballabio_spectrum, energy.py:113-147. *)
Definition ballabio_energy_spectrum (b : ballabio) (T : R) (meth : spectrum_method) : res (list R * list R) :=
  do mu <- mean_energy b T;
  do sigma <- std_deviation b T;
  match meth with
  | SGaussian => gaussian_energy_spectrum mu sigma
  | SMGaussian => modified_gaussian_energy_spectrum mu sigma
  | _ => Err ENotImplemented
  end.

(** ** The T-T spectra *)

(** A decimal of the data file. *)
Definition dec_val (d : dec) : R := match d with V m e => IZR m / 10 ^ N.to_nat e end.
(** TTNeutronEnergyDataSpectrum.__init__, energy_data.py:52-64, for the shipped file: energies in keV, spectra in
    1/keV and the forty temperatures. (MeV to keV and back: a factor 1000.) *)
Record tt_data := { tt_energy : list R; tt_temps : list R; tt_spectra : list (list R) }.
Definition make_tt_data (rows : list (dec * list dec)) : tt_data :=
  {| tt_energy := map (fun row => dec_val (fst row) * 1000) rows;
     tt_temps := linspace 1.0 20.0 40;
     tt_spectra := map (fun row => map (fun d => dec_val d / 1000) (snd row)) rows |}.
Definition tt_shipped : tt_data := make_tt_data tt_rows.
(** RegularGridInterpolator(method="linear", bounds_error=True) at one point, energy_data.py:58-64. scipy adds
    the four corners with bilinear weights; here the same value is computed by interpolating first in temperature, in
    every row, and then in energy. *)
Definition grid_interp2 (d : tt_data) (e T : R) : res R :=
  do col <- mapM (fun row => interp1d_call (combine (tt_temps d) row) T) (tt_spectra d);
  interp1d_call (combine (tt_energy d) col) e.
(** TTNeutronEnergyDataSpectrum.__call__, energy_data.py:66-76. *)
Definition tt_call (d : tt_data) (T : R) : res (list R * list R * list swarning) :=
  let inside := Rltb 1.0 T && Rltb T 20.0 in
  let T' := if inside then T else clip 1.0 20.0 T in
  let w := if inside then [] else [WTTClip T] in
  do pdf <- mapM (fun e => grid_interp2 d e T') (tt_energy d);
  Ok (tt_energy d, pdf, w).

(** ** Dispatch *)

(** _data_spectrum, energy.py:83-110. *)
Definition data_spectrum (d : tt_data) (r : reaction) (T : R) : res (list R * list R * list swarning) :=
  match r with
  | TT => do t <- tt_call d T;
          do p <- prepare_energy_pdf (fst (fst t)) (snd (fst t));
          Ok (p, snd t)
  | _ => Err ENotImplemented
  end.
(** energy_spectrum, energy.py:32-80; None is Python's None, returned when no case of the inner match applies. *)
Definition energy_spectrum_once (d : tt_data) (T : R) (r : reaction) (meth : spectrum_method)
  : res (option (list R * list R) * list swarning) :=
  match meth with
  | SGaussian | SMGaussian =>
      match ballabio_spectrum r with
      | Some b => do s <- ballabio_energy_spectrum b T meth; Ok (Some s, [])
      | None => do s <- data_spectrum d r T; Ok (Some (fst s), WNoBallabio r :: snd s)
      end
  | SData => do s <- data_spectrum d r T; Ok (Some (fst s), snd s)
  | SAuto => Ok (None, [])
  end.
Definition energy_spectrum (d : tt_data) (T : R) (r : reaction) (meth : spectrum_method)
  : res (option (list R * list R) * list swarning) :=
  match meth with
  | SAuto =>
      match r with
      | DDn | DT => energy_spectrum_once d T r SMGaussian
      | TT => energy_spectrum_once d T r SData
      | DDp | DHe3 => Ok (None, [])
      end
  | _ => energy_spectrum_once d T r meth
  end.
