(** Model of /repo/tokamak_neutron_source/openmc_interface.py and of
    /repo/tokamak_neutron_source/main.py:213-242 (to_openmc_source).

    OpenMC objects are represented by the arguments their constructors are given; OpenMC's own argument checks
    and its sampling are not modelled. *)
From Verif Require Import Base Reactions Space Source SpectraData Energy LogFilter.

(** openmc.stats distributions used here: Normal(mean, std), Tabular(x, p, interpolation="linear-linear"),
    Uniform(a, b) and Mixture(probability, distribution). *)
Inductive univariate :=
| Normal (mean std : R)
| Tabular (x p : list R)
| Uniform (a b : R)
| Mixture (p : list R) (d : list univariate).

(** An openmc.IndependentSource with a CylindricalIndependent space and an isotropic angle. *)
Record independent_source := {
  src_energy : univariate;
  src_r : univariate; src_phi : univariate; src_z : univariate; src_origin : R * R * R;
  src_strength : R }.

(** raw_uc, constants.py:248-281, for the unit pairs used here. *)
Definition keV_to_eV (x : R) : R := x * 1000.
Definition m_to_cm (x : R) : R := x * 100.

(** get_neutron_energy_spectrum, openmc_interface.py:27-62, with the warnings logged. Unpacking the None that
    energy_spectrum returns for aneutronic reactions raises TypeError. *)
Definition get_neutron_energy_spectrum (d : tt_data) (r : reaction) (T : R) (meth : spectrum_method) : res (univariate * list swarning) :=
  match meth, ballabio_spectrum r with
  | SGaussian, Some b =>
      do mean <- mean_energy b T;
      do std <- std_deviation b T;
      Ok (Normal (keV_to_eV mean) (keV_to_eV std), [])
  | _, _ =>
      do (s, w) <- energy_spectrum d T r meth;
      match s with
      | None => Err EType
      | Some (energy, probability) => Ok (Tabular (map keV_to_eV energy) probability, w)
      end
  end.

(** make_openmc_ring_source, openmc_interface.py:65-115; None is Python's None. *)
Definition make_openmc_ring_source (r z half_cell_length : R) (energy_distribution : univariate) (strength : R)
  : res (option independent_source) :=
  if Rltb 0 strength then
    let r_in := r - half_cell_length in
    let r_out := r + half_cell_length in
    let z_down := z - half_cell_length in
    let z_up := z + half_cell_length in
    let r_lim_cm := map m_to_cm [r_in; r_out] in
    do r_lim_prob <- mapM (fun x => np_div x (pysum r_lim_cm)) r_lim_cm;
    Ok (Some {| src_energy := energy_distribution;
                src_r := Tabular r_lim_cm r_lim_prob;
                src_phi := Uniform 0 (2 * PI);
                src_z := Uniform (m_to_cm z_down) (m_to_cm z_up);
                src_origin := (0, 0, 0);
                src_strength := strength |})
  else Ok None.

(** n_strength, openmc_interface.py:153-157. *)
Definition n_strength (st : dict (list R)) : dict (list R) :=
  map (fun p => (fst p, map (fun x => x * INR (num_neutrons (fst p))) (snd p)))
      (filter (fun p => is_neutronic (fst p)) st).

(** The inner loop, openmc_interface.py:165-170: the weights, distributions and warnings of ring i. *)
Fixpoint ring_channels (d : tt_data) (meth : spectrum_method) (i : nat) (T : R) (ns : dict (list R))
  : res (list R * list univariate * list swarning) :=
  match ns with
  | [] => Ok ([], [], [])
  | (r, s) :: ns' =>
      do x <- (match nth_error s i with Some x => Ok x | None => Err EIndex end);
      if Rltb 0 x then
        do (dist, w) <- get_neutron_energy_spectrum d r T meth;
        do (ws, ds, w') <- ring_channels d meth i T ns';
        Ok (x :: ws, dist :: ds, w ++ w')
      else ring_channels d meth i T ns'
  end.

(** The source_rate argument: the int 0 (sum of an empty dict, main.py:143-148) or a numpy float. *)
Inductive rate := RInt0 | RFloat (x : R).

(** local_strength / source_rate, openmc_interface.py:181: sum([]) is the int 0; nan is represented by None. *)
Definition share (weights : list R) (q : rate) : res (option R) :=
  match weights, q with
  | [], RInt0 => Err EZeroDivision
  | [], RFloat x => if Reqb x 0 then Ok None else Ok (Some (0 / x))
  | _, RInt0 => NonFinite
  | _, RFloat x => do y <- np_div (pysum weights) x; Ok (Some y)
  end.

(** One round of the outer loop, openmc_interface.py:161-185. The division by local_strength is only by zero
    when there are no weights, and then the array is empty. A nan strength is not > 0. *)
Definition ring (d : tt_data) (meth : spectrum_method) (l_2 : R) (ns : dict (list R)) (q : rate) (i : nat) (c : R * R * R)
  : res (option independent_source * list swarning) :=
  let '(ri, zi, ti) := c in
  do (weights, distributions, w) <- ring_channels d meth i ti ns;
  let local_strength := pysum weights in
  do probability <- mapM (fun x => np_div x local_strength) weights;
  do strength <- share weights q;
  match strength with
  | None => Ok (None, w)
  | Some x => do src <- make_openmc_ring_source ri zi l_2 (Mixture probability distributions) x; Ok (src, w)
  end.

Fixpoint rings (d : tt_data) (meth : spectrum_method) (l_2 : R) (ns : dict (list R)) (q : rate) (i : nat) (l : list (R * R * R))
  : res (list independent_source * list swarning) :=
  match l with
  | [] => Ok ([], [])
  | c :: l' =>
      do (src, w) <- ring d meth l_2 ns q i c;
      do (srcs, w') <- rings d meth l_2 ns q (S i) l';
      Ok (match src with Some x => x :: srcs | None => srcs end, w ++ w')
  end.

(** Two warnings have the same text. The text contains the label or the number; printing numbers is injective. *)
Definition same_message (a b : swarning) : bool :=
  match a, b with
  | WNoBallabio r, WNoBallabio r' => reaction_eqb r r'
  | WTTClip T, WTTClip T' => Reqb T T'
  | _, _ => false
  end.

(** make_openmc_full_combined_source, openmc_interface.py:118-188. zip stops at the shortest array. The
    warnings are the ones that pass the duplicate filter (both kinds are logged by filtered loggers). *)
Definition make_openmc_full_combined_source (d : tt_data) (r z : list R) (cell_side_length : R) (temperature : list R)
    (st : dict (list R)) (q : rate) (meth : spectrum_method) : res (list independent_source * list swarning) :=
  let l_2 := cell_side_length / 2 in
  do (srcs, w) <- rings d meth l_2 (n_strength st) q 0 (combine (combine r z) temperature);
  Ok (srcs, filter_duplicates same_message [] w).

(** to_openmc_source, main.py:213-242. *)
Definition to_openmc_source (d : tt_data) (s : source) (meth : spectrum_method) : res (list independent_source * list swarning) :=
  let q := match num_neutrons_ps s with [] => RInt0 | _ => RFloat (source_rate s) end in
  make_openmc_full_combined_source d (map (fun c => fst (fst c)) (cells s)) (map (fun c => snd (fst c)) (cells s))
    (cell_side s) (temperature s) (strength s) q meth.
