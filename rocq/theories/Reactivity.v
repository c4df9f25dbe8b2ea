(** Model of /repo/tokamak_neutron_source/reactivity.py and
    /repo/tokamak_neutron_source/reactivity_data.py. *)
From Verif Require Import Base Reactions Profile XsData.

(** ReactivityMethod, reactivity.py:35-40. *)
Inductive method := MXS | MBoschHale | MAuto.

(** Messages logged with logger.warning by these functions. *)
Inductive warning :=
| WOutOfRange (tmin tmax : R)      (* reactivity.py:196-202: detected range of temperatures *)
| WNoBoschHale (r : reaction).     (* reactivity.py:127-130 *)

(** BoschHaleCoefficients, reactivity_data.py:63-77; the array c has seven entries. *)
Record bh_coeffs := { t_min : R; t_max : R; bg : R; mrc2 : R; c0 : R; c1 : R; c2 : R; c3 : R; c4 : R; c5 : R; c6 : R }.

(** reactivity_data.py:88-105 *)
Definition bh_DT : bh_coeffs :=
  {| t_min := 0.2; t_max := 100; bg := 34.3827; mrc2 := 1124656;
     c0 := 1.17302e-9; c1 := 1.51361e-2; c2 := 7.51886e-2; c3 := 4.60643e-3;
     c4 := 1.35e-2; c5 := -1.0675e-4; c6 := 1.366e-5 |}.
(** reactivity_data.py:108-125 *)
Definition bh_DDn : bh_coeffs :=
  {| t_min := 0.2; t_max := 100; bg := 31.3970; mrc2 := 937814;
     c0 := 5.4336e-12; c1 := 5.85778e-3; c2 := 7.68222e-3; c3 := 0;
     c4 := -2.964e-6; c5 := 0; c6 := 0 |}.
(** reactivity_data.py:128-145 *)
Definition bh_DDp : bh_coeffs :=
  {| t_min := 0.2; t_max := 100; bg := 31.3970; mrc2 := 937814;
     c0 := 5.65718e-12; c1 := 3.41267e-3; c2 := 1.99167e-3; c3 := 0;
     c4 := 1.0506e-5; c5 := 0; c6 := 0 |}.

(** ReactionData.bosch_hale_coefficients, reactions.py:92, 100, 108, 121, 129. *)
Definition bosch_hale_coefficients (r : reaction) : option bh_coeffs :=
  match r with
  | DT => Some bh_DT | DDn => Some bh_DDn | TT => None | DDp => Some bh_DDp | DHe3 => None
  end.

(** One element of _reactivity_channel_bosch_hale, reactivity.py:205-231: zero where T > 0 fails. *)
Definition bh_point (d : bh_coeffs) (T : R) : res R :=
  if Rltb 0 T then
    do frac <- np_div (T * (c1 d + T * (c3 d + T * c5 d))) (1 + T * (c2 d + T * (c4 d + T * c6 d)));
    do theta <- np_div T (1 - frac);
    do q <- np_div (bg d * bg d) (4 * theta);
    do chi <- np_pow q (1 / 3);
    do s <- np_div chi (mrc2 d * (T * T * T));
    do root <- np_sqrt s;
    Ok (1e-6 * c0 d * theta * root * exp (-3 * chi))
  else Ok 0.

(** _reactivity_channel_bosch_hale, reactivity.py:173-231, on the array of temperatures (a scalar is
    turned into an array of one element and the result stays an array of one element).
    np.min of an empty array raises ValueError. *)
Definition channel_bosch_hale (temps : list R) (d : bh_coeffs) : res (list R * list warning) :=
  do lo <- np_min temps;
  do hi <- np_max temps;
  let w := if Rltb lo (t_min d) || Rltb (t_max d) hi then [WOutOfRange lo hi] else [] in
  do v <- mapM (bh_point d) temps;
  Ok (v, w).

(** _reactivity_bosch_hale, reactivity.py:136-170. *)
Definition reactivity_bosch_hale (temps : list R) (r : reaction) : res (list R * list warning) :=
  match bosch_hale_coefficients r with
  | Some d => channel_bosch_hale temps d
  | None => Err EReactivity
  end.

(** ** Cross sections *)

(** np.genfromtxt(file, comments="#", skip_footer=n, unpack=True), as far as used at
    reactivity_data.py:40: leading lines without values are dropped, the first line with values fixes the
    number of columns (two), later empty lines are skipped, lines with another number of columns are
    "invalid" and numbered; invalid lines inside the footer are subtracted from skip_footer,
    other invalid lines raise ValueError; then the last skip_footer rows are removed. *)
Fixpoint drop_comments (l : list line) : list line :=
  match l with Comment :: r => drop_comments r | _ => l end.
Fixpoint rows_of (l : list line) : list (Z * Z) :=
  match l with [] => [] | Row e s :: r => (e, s) :: rows_of r | _ :: r => rows_of r end.
Fixpoint invalid_of (i : Z) (l : list line) : list Z :=
  match l with [] => [] | Bad :: r => (i + 1)%Z :: invalid_of (i + 1) r | _ :: r => invalid_of (i + 1) r end.
Definition genfromtxt (lines : list line) (skip_footer : Z) : res (list (Z * Z)) :=
  let body := drop_comments lines in
  let rows := rows_of body in
  let invalid := invalid_of 0 body in
  let nbrows := (Z.of_nat (length rows) + Z.of_nat (length invalid) - skip_footer)%Z in
  let skipped := filter (fun i => Z.ltb nbrows i) invalid in
  if Nat.ltb (length skipped) (length invalid) then Err EValue else
  let skip := (skip_footer - Z.of_nat (length skipped))%Z in
  Ok (firstn (length rows - Z.to_nat skip) rows).

(** Conversion constants (raw_uc with pint): positive numbers. *)
Record units := { amu_kg : R; keV_J : R }.

(** A cross section object: the sorted interpolation table (keV, m^2) and the reduced mass. *)
Record xsection := { xs_tab : list (R * R); reduced_mass : R }.

(** ReactionCrossSection.__init__, reactivity_data.py:21-55, for a file that exists; m1, m2 are the
    molar masses of collider and target named in the file name. *)
Definition make_xs (u : units) (lines : list line) (m1 m2 : R) : res xsection :=
  do rows <- genfromtxt lines 2;
  do mu <- np_div (m1 * m2) (m1 + m2);
  do f <- np_div m2 (m1 + m2);
  match rows with
  | [] => Err EValue
  | _ => Ok {| xs_tab := sort_pairs (map (fun p => (IZR (fst p) / 10 ^ 9 * f * 1e3, IZR (snd p) / 10 ^ 43 * 1e-28)) rows);
               reduced_mass := mu * amu_kg u |}
  end.

(** reactivity_data.py:80-84 with reactions.py:91, 99, 107, 120, 128. *)
Definition cross_section (m : masses) (u : units) (r : reaction) : res xsection :=
  match r with
  | TT => make_xs u lines_TT (mT m) (mT m)
  | DT => make_xs u lines_DT (mD m) (mT m)
  | DDp => make_xs u lines_DDp (mD m) (mD m)
  | DDn => make_xs u lines_DDn (mD m) (mD m)
  | DHe3 => make_xs u lines_DHe3 (mD m) (mHe3 m)
  end.

(** np.logspace(0, 3, 1000), reactivity.py:257. *)
Definition t_grid_kev : list R := map (fun y => Rpower 10 y) (linspace 0 3 1000).

(** One row of _reactivity_from_xs, reactivity.py:254-264, for a cross section sigma(E keV) given as
    a function. temp_j ** 1.5 is np_pow; at 0 K the factor is inf and the row is nan, below 0 it is nan. *)
Definition xs_point (u : units) (mu : R) (sigma : R -> res R) (T : R) : res R :=
  let temp_j := T * keV_J u in
  let t_grid_j := map (fun t => t * keV_J u) t_grid_kev in
  do s <- mapM sigma t_grid_kev;
  do den <- np_sqrt (2 * PI * mu);
  do f0 <- np_div 4 den;
  do tp <- np_pow temp_j 1.5;
  do factor <- np_div f0 tp;
  do integrand <- mapM (fun st => do q <- np_div (- snd st) temp_j; Ok (factor * fst st * snd st * exp q))
                       (combine s t_grid_j);
  Ok (trapezoid integrand t_grid_j).

(** _reactivity_from_xs, reactivity.py:234-265: elementwise. The cross section is evaluated first
    (out-of-range energies raise ValueError even for no temperatures; the last conversion to
    float never happens because atleast_1d makes temp_kev an array). *)
Definition reactivity_from_xs (u : units) (temps : list R) (xs : xsection) : res (list R) :=
  do s <- mapM (interp1d_call (xs_tab xs)) t_grid_kev;
  mapM (xs_point u (reduced_mass xs) (interp1d_call (xs_tab xs))) temps.

(** reactivity, reactivity.py:93-133. *)
Definition reactivity (m : masses) (u : units) (temps : list R) (reaction_arg : item) (meth : method)
  : res (list R * list warning) :=
  do r <- parse_reaction reaction_arg;
  let from_xs w := do xs <- cross_section m u r; do v <- reactivity_from_xs u temps xs; Ok (v, w) in
  match meth with
  | MAuto =>
      match bosch_hale_coefficients r with
      | Some _ => reactivity_bosch_hale temps r
      | None => from_xs []
      end
  | MBoschHale =>
      match bosch_hale_coefficients r with
      | Some _ => reactivity_bosch_hale temps r
      | None => from_xs [WNoBoschHale r]
      end
  | MXS => from_xs []
  end.

(** The density product, reactivity.py:78-88 (elementwise). *)
Definition n1_n2 (r : reaction) (d t he3 : R) : R :=
  match r with
  | DDn | DDp => d * d / 2
  | DT => d * t
  | TT => t * t / 2
  | DHe3 => d * he3
  end.

(** One cell's densities: deuterium, tritium, helium-3. *)
Record dens := { nd : R; nt : R; nhe3 : R }.

(** density_weighted_reactivity, reactivity.py:43-90, on arrays of one length (one density record
    per temperature). *)
Definition density_weighted_reactivity (m : masses) (u : units) (temps : list R) (ds : list dens)
    (reaction_arg : item) (meth : method) : res (list R * list warning) :=
  do r <- parse_reaction reaction_arg;
  do vw <- reactivity m u temps (IReact r) meth;
  Ok (map2 (fun d v => n1_n2 r (nd d) (nt d) (nhe3 d) * v) ds (fst vw), snd vw).
