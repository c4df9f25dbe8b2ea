(** Model of /repo/tokamak_neutron_source/mcnp_interface.py and of
    /repo/tokamak_neutron_source/main.py:244-262 (to_sdef_card).

    Files are represented by their names and contents, in the order in which they are written. *)
From Coq Require Import Ascii String List Bool Arith ZArith.
From Verif Require Import Base Reactions Space Source SpectraData Energy TextWrap Format.

(** raw_uc, constants.py:248-281, for the unit pairs used here. *)
Definition m_to_cm (x : R) : R := x * 100.
Definition keV_to_MeV (x : R) : R := x / 1000.

(** np.unique, line 75: the distinct values, sorted. *)
Fixpoint insert_unique (x : R) (l : list R) : list R :=
  match l with
  | [] => [x]
  | y :: l' => if Rltb x y then x :: l else if Reqb x y then l else y :: insert_unique x l'
  end.
Definition np_unique (l : list R) : list R := fold_right insert_unique [] l.
(** r_bounds, lines 75-76. *)
Definition r_bounds (r : list R) (drad dr : R) : res (list R) :=
  match map (fun x => x - drad) (np_unique r) with
  | [] => Err EIndex
  | b :: bs => Ok ((b :: bs) ++ [last bs b + dr])
  end.
(** np.nonzero(r[1:] != r[:-1])[0], line 80. *)
Fixpoint changes_from (i : nat) (r : list R) : list nat :=
  match r with
  | a :: ((b :: _) as r') => if Reqb b a then changes_from (S i) r' else i :: changes_from (S i) r'
  | _ => []
  end.
(** z_ints, line 80. *)
Definition z_ints (r : list R) : list Z :=
  [(-1)%Z] ++ map Z.of_nat (changes_from 0 r) ++ [(Z.of_nat (length r) - 1)%Z].
(** l[a:b] for a, b >= 0. *)
Definition slice {A} (l : list A) (a b : nat) : list A := firstn (b - a) (skipn a l).
(** The pairs (z_ints[i], z_ints[i + 1]) for i in range(len(z_ints) - 1). *)
Fixpoint ranges (l : list Z) : list (Z * Z) :=
  match l with a :: ((b :: _) as l') => (a, b) :: ranges l' | _ => [] end.
(** l[z_ints[i] + 1 : z_ints[i + 1] + 1], lines 88, 136-137, 144. *)
Definition column {A} (l : list A) (ab : Z * Z) : list A := slice l (Z.to_nat (fst ab + 1)) (Z.to_nat (snd ab + 1)).

(** " ".join(f"{x:.5e}" for x in l) *)
Definition numbers (l : list R) : text := join [space] (map (fmt_e 5) l).

(** The SI3, SP3 and DS4 cards, lines 82-98; offset = 5, line 64. *)
Definition si3_card (bounds : list R) : res text := text_wrap (txt "SI3 H " ++ numbers bounds) 6 80 1.
Definition sp3_card (r_data : list R) (zi : list Z) : res text :=
  text_wrap (txt "SP3 D " ++ fmt_e 5 0 ++ txt " " ++ numbers (map (fun ab => pysum (column r_data ab)) (ranges zi))) 6 80 1.
Definition ds4_card (n_bounds : nat) : res text :=
  text_wrap (txt "DS4 S " ++ join [space] (map show_nat (seq 5 (n_bounds - 1)))) 6 80 1.

(** One round of _si_sp_vertical_dist_cards, lines 133-148. *)
Definition vertical_cards (z : list R) (dzed : R) (r_data : list R) (i : nat) (ab : Z * Z) : res (text * text) :=
  let name := show_nat (i + 5) in
  let indent_offset := (length name + 5)%nat in
  let z_i := numbers (map (fun zi => zi - dzed) (column z ab)) in
  do z_last <- (match nth_error z (Z.to_nat (snd ab)) with Some x => Ok x | None => Err EIndex end);
  do si_card <- text_wrap (txt "SI" ++ name ++ txt " H " ++ z_i ++ txt " " ++ fmt_e 5 (z_last + dzed)) indent_offset 80 1;
  let rd := numbers (column r_data ab) in
  do sp_card <- text_wrap (txt "SP" ++ name ++ txt " D " ++ fmt_e 5 0 ++ txt " " ++ rd) indent_offset 80 1;
  Ok (si_card, sp_card).
(** _si_sp_vertical_dist_cards, lines 114-148. *)
Fixpoint vertical_dist_cards (z : list R) (dzed : R) (r_data : list R) (i : nat) (l : list (Z * Z)) : res (list (text * text)) :=
  match l with
  | [] => Ok []
  | ab :: l' =>
      do c <- vertical_cards z dzed r_data i ab;
      do cs <- vertical_dist_cards z dzed r_data (S i) l';
      Ok (c :: cs)
  end.

(** mean_ion_temp, lines 239-241, where 0 / 0 is nan and x / 0 is inf. Arrays of different lengths raise ValueError
    (numpy's broadcasting of arrays of length one is not modelled). *)
Definition f_div (x y : R) : fnum := if Reqb y 0 then (if Reqb x 0 then Nan else Inf (Rltb 0 x)) else Fin (x / y).
Definition f_map (f : R -> R) (x : fnum) : fnum := match x with Fin x => Fin (f x) | y => y end.
Definition mean_ion_temp (st temps : list R) : res fnum :=
  if (length st =? length temps)%nat then Ok (f_div (pysum (map2 Rmult st temps)) (pysum st)) else Err EValue.

(** The parts of CITATION.cff used by the header (tools.py:201-211 load_citation and lines 175-184): for each author the
    given names, the family names and the affiliation, and the repository address. *)
Record citation := { cit_authors : list (text * text * text); cit_repository : text }.
Definition author_line (a : text * text * text) : text :=
  let '(given, family, affiliation) := a in txt "C    " ++ given ++ txt " " ++ family ++ txt ", " ++ affiliation.

(** A line of the header template, lines 204-236. *)
Definition line (t : text) : text := t ++ [newline].

(** energy_spectrum(ion_temp, T_T, DATA) where the temperature may be nan or inf: the T-T table raises ValueError
    for nan and clips inf (energy_data.py:66-76 and scipy's bounds check). *)
Definition tt_spectrum (d : tt_data) (T : fnum) : res (option (list R * list R) * list swarning) :=
  match T with
  | Fin T => energy_spectrum d T TT SData
  | Nan => Err EValue
  | Inf true => energy_spectrum d 21 TT SData
  | Inf false => energy_spectrum d 0 TT SData
  end.

(** The energy cards, lines 186-202; None is the case no branch covers (the array is then printed by str, which is not modelled). *)
Definition energy_cards (d : tt_data) (r : reaction) (ion_temp : fnum) : res (text * list swarning) :=
  match r with
  | DT => Ok (line (txt "SP2 -4 " ++ fmt_5e (f_map keV_to_MeV ion_temp) ++ txt " " ++ txt "-1"), [])
  | DDn => Ok (line (txt "SP2 -4 " ++ fmt_5e (f_map keV_to_MeV ion_temp) ++ txt " " ++ txt "-2"), [])
  | TT =>
      do (s, w) <- tt_spectrum d ion_temp;
      match s with
      | None => Err EType
      | Some (energies, probabilities) =>
          do si <- text_wrap (fmt_e 5 0 ++ txt " " ++ numbers (map keV_to_MeV energies)) 6 80 1;
          do sp <- text_wrap (fmt_e 5 0 ++ txt " " ++ numbers probabilities) 6 80 1;
          Ok ((txt "SI2 H " ++ si) ++ (txt "SP2 D " ++ sp), w)
      end
  | DDp | DHe3 => Err ENotImplemented
  end.

(** sdef_header, lines 151-236. *)
Definition sdef_header (d : tt_data) (cit : citation) (r : reaction) (r_data temps : list R) : res (text * list swarning) :=
  let strength := pysum r_data in
  do ion_temp <- mean_ion_temp r_data temps;
  do (cards, w) <- energy_cards d r ion_temp;
  Ok (
    line (txt "C ============================") ++
    line (txt "C SDEF Card for Tokamak Neutron Source generated by:") ++
    line (txt "C " ++ cit_repository cit) ++
    line (txt "C ============================") ++
    line (txt "C") ++
    line (txt "C ============================") ++
    line (txt "C Authors:") ++
    line (join [newline] (map author_line (cit_authors cit))) ++
    line (txt "C ============================") ++
    line (txt "C") ++
    line (txt "C ============================") ++
    line (txt "C Method:") ++
    line (txt "C 1. Create a cylinder that encloses the entire torus.") ++
    line (txt "C 2. Then slice the cylinder along the R-axis.") ++
    line (txt "C 3. Finally, define the vertical distribution, assuming rotational symmetry.") ++
    line (txt "C ============================") ++
    line (txt "C") ++
    line (txt "C ============================") ++
    line (txt "C Reaction channel: " ++ txt (label r)) ++
    line (txt "C Total source neutrons: " ++ fmt_e 6 strength ++ txt " n/s") ++
    line (txt "C ============================") ++
    line (txt "C") ++
    line (txt "C 1. Neutron Emission Probability - Set up cylindrical source") ++
    line (txt "C") ++
    line (txt "sdef erg=d2 par=1 wgt=1") ++
    line (txt "      pos = 0 0 0    $ Center = origin") ++
    line (txt "      axs = 0 0 1    $ Cylinder points along the Z axis") ++
    line (txt "      rad = d3       $ radial distribution defined by distribution 3") ++
    line (txt "      ext = frad d4  $ extent distribution defined by distribution 4 which is dependent on distribution rad") ++
    cards ++ line (txt "C") ++
    line (txt "C 2. Neutron Emission Probability - Radial Distribution") ++
    line (txt "C"), w).

(** re.findall(r"[DT]", label), line 68. *)
Definition is_DT (c : ascii) : bool := Ascii.eqb c "D" || Ascii.eqb c "T".
Definition short_react (r : reaction) : text := filter is_DT (txt (label r)).
(** file_name, line 69. *)
Definition file_name (stub : text) (r : reaction) : res text :=
  match short_react r with
  | a :: b :: _ => Ok (stub ++ txt "." ++ [a; b])
  | _ => Err EIndex
  end.

(** The content of the file of one reaction, lines 71-108; r, z and dr in cm. *)
Definition file_content (d : tt_data) (cit : citation) (r z : list R) (dr : R) (temps : list R) (reac : reaction) (r_data : list R)
  : res (text * list swarning) :=
  let drad := dr / 2 in
  do (header, w) <- sdef_header d cit reac r_data temps;
  do bounds <- r_bounds r drad dr;
  let zi := z_ints r in
  do si <- si3_card bounds;
  do sp <- sp3_card r_data zi;
  do ds <- ds4_card (length bounds);
  do cs <- vertical_dist_cards z drad r_data 0 (ranges zi);
  Ok (header ++ si ++ sp ++ ds ++
      line (txt "C") ++ line (txt "C 3. Neutron Emission Probability - Vertical Distribution") ++ line (txt "C") ++
      concat (map (fun c => fst c ++ snd c) cs), w).

(** The loop of write_mcnp_sdef_source, lines 66-111: the files written before the end or the exception, and the outcome. (Should
    the loop over the columns raise, which it does only when z is shorter than r, a partial file is left; the file operations one by one are modelled in McnpIO.v.) *)
Fixpoint write_files (d : tt_data) (cit : citation) (stub : text) (r z : list R) (dr : R) (temps : list R) (st : dict (list R))
  : list (text * text) * res (list swarning) :=
  match st with
  | [] => ([], Ok [])
  | (reac, r_data) :: st' =>
      if is_neutronic reac then
        match (do name <- file_name stub reac; do (t, w) <- file_content d cit r z dr temps reac r_data; Ok (name, t, w)) with
        | Ok (name, t, w) =>
            let '(files, out) := write_files d cit stub r z dr temps st' in
            ((name, t) :: files, do w' <- out; Ok (w ++ w'))
        | Err e => ([], Err e)
        | NonFinite => ([], NonFinite)
        end
      else write_files d cit stub r z dr temps st'
  end.
(** write_mcnp_sdef_source, lines 23-111. *)
Definition write_mcnp_sdef_source (d : tt_data) (cit : citation) (stub : text) (r z : list R) (cell_side_length : R) (temps : list R)
    (st : dict (list R)) : list (text * text) * res (list swarning) :=
  write_files d cit stub (map m_to_cm r) (map m_to_cm z) (m_to_cm cell_side_length) temps st.
(** to_sdef_card, main.py:244-262. *)
Definition to_sdef_card (d : tt_data) (cit : citation) (s : source) (filename : text) : list (text * text) * res (list swarning) :=
  write_mcnp_sdef_source d cit filename (map (fun c => fst (fst c)) (cells s)) (map (fun c => snd (fst c)) (cells s))
    (cell_side s) (temperature s) (strength s).
