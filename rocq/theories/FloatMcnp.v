(** Model of /repo/tokamak_neutron_source/mcnp_interface.py:23-241 in IEEE binary64, the arithmetic numpy really uses. Mcnp.v models the
    same functions with exact numbers; the layout of the files, and what does not depend on the numbers, is shared with it. *)
From Coq Require Import Ascii String List Bool Arith ZArith.
From Flocq Require Import IEEE754.BinarySingleNaN.
From Verif Require Import Base Reactions Space Source TextWrap Format Mcnp FloatComp FloatSource.

(** f"{x:.pe}" of a double: negative zero keeps its sign. *)
Definition show64 (p : nat) (x : f64) : text :=
  match x with
  | B754_zero s => (if s then txt "-" else []) ++ fmt_e p 0
  | B754_infinity s => if s then txt "-inf" else txt "inf"
  | B754_nan => txt "nan"
  | _ => fmt_e p (B2R x)
  end.
(** f"{x:5e}": six digits, at least five characters. *)
Definition show64_5e (x : f64) : text :=
  match x with
  | B754_infinity s => if s then txt " -inf" else txt "  inf"
  | B754_nan => txt "  nan"
  | _ => show64 6 x
  end.
(** " ".join(f"{x:.5e}" for x in l) *)
Definition numbers64 (l : list f64) : text := join [space] (map (show64 5) l).

(** np.unique, line 75: the distinct values, sorted. *)
Fixpoint insert_unique64 (x : f64) (l : list f64) : list f64 :=
  match l with
  | [] => [x]
  | y :: l' => if Bltb x y then x :: l else if Beqb x y then l else y :: insert_unique64 x l'
  end.
Definition np_unique64 (l : list f64) : list f64 := fold_right insert_unique64 [] l.
(** r_bounds, lines 75-76. *)
Definition r_bounds64 (r : list f64) (drad dr : f64) : res (list f64) :=
  match map (fun x => fsub x drad) (np_unique64 r) with
  | [] => Err EIndex
  | b :: bs => Ok ((b :: bs) ++ [fadd (last bs b) dr])
  end.
(** np.nonzero(r[1:] != r[:-1])[0], line 80. *)
Fixpoint changes_from64 (i : nat) (r : list f64) : list nat :=
  match r with
  | a :: ((b :: _) as r') => if Beqb b a then changes_from64 (S i) r' else i :: changes_from64 (S i) r'
  | _ => []
  end.
(** z_ints, line 80. *)
Definition z_ints64 (r : list f64) : list Z :=
  [(-1)%Z] ++ map Z.of_nat (changes_from64 0 r) ++ [(Z.of_nat (length r) - 1)%Z].

(** One round of _si_sp_vertical_dist_cards, lines 133-148. *)
Definition vertical_cards64 (z : list f64) (dzed : f64) (r_data : list f64) (i : nat) (ab : Z * Z) : res (text * text) :=
  let name := show_nat (i + 5) in
  let indent_offset := (length name + 5)%nat in
  let z_i := numbers64 (map (fun zi => fsub zi dzed) (column z ab)) in
  do z_last <- (match nth_error z (Z.to_nat (snd ab)) with Some x => Ok x | None => Err EIndex end);
  do si_card <- text_wrap (txt "SI" ++ name ++ txt " H " ++ z_i ++ txt " " ++ show64 5 (fadd z_last dzed)) indent_offset 80 1;
  let rd := numbers64 (column r_data ab) in
  do sp_card <- text_wrap (txt "SP" ++ name ++ txt " D " ++ fmt_e 5 0 ++ txt " " ++ rd) indent_offset 80 1;
  Ok (si_card, sp_card).
(** _si_sp_vertical_dist_cards, lines 114-148. *)
Fixpoint vertical_dist_cards64 (z : list f64) (dzed : f64) (r_data : list f64) (i : nat) (l : list (Z * Z)) : res (list (text * text)) :=
  match l with
  | [] => Ok []
  | ab :: l' =>
      do c <- vertical_cards64 z dzed r_data i ab;
      do cs <- vertical_dist_cards64 z dzed r_data (S i) l';
      Ok (c :: cs)
  end.

Section Numpy.
  (** The factors pint finds for m -> cm and keV -> MeV (constants.py:248-281); a quantity is multiplied by them. *)
  Variables (cm MeV : f64).
  (** np.sum of an array: adds in an order that depends on numpy's version and on the processor. *)
  Variable npsum : list f64 -> f64.
  (** energy_spectrum(T, T_T, DATA) (energies in keV, probabilities), lines 194-196. *)
  Variable tt_spectrum64 : f64 -> res (list f64 * list f64).

  (** mean_ion_temp, lines 239-241. Arrays of different lengths raise ValueError (numpy's broadcasting of arrays of length one is not modelled). *)
  Definition mean_ion_temp64 (st temps : list f64) : res f64 :=
    if (length st =? length temps)%nat then Ok (fdiv (npsum (map2 fmul st temps)) (npsum st)) else Err EValue.

  (** The SI3 and SP3 cards, lines 82-92. *)
  Definition si3_card64 (bounds : list f64) : res text := text_wrap (txt "SI3 H " ++ numbers64 bounds) 6 80 1.
  Definition sp3_card64 (r_data : list f64) (zi : list Z) : res text :=
    text_wrap (txt "SP3 D " ++ fmt_e 5 0 ++ txt " " ++ numbers64 (map (fun ab => npsum (column r_data ab)) (ranges zi))) 6 80 1.

  (** The energy cards, lines 186-202. *)
  Definition energy_cards64 (r : reaction) (ion_temp : f64) : res text :=
    match r with
    | DT => Ok (line (txt "SP2 -4 " ++ show64_5e (fmul ion_temp MeV) ++ txt " " ++ txt "-1"))
    | DDn => Ok (line (txt "SP2 -4 " ++ show64_5e (fmul ion_temp MeV) ++ txt " " ++ txt "-2"))
    | TT =>
        do (energies, probabilities) <- tt_spectrum64 ion_temp;
        do si <- text_wrap (fmt_e 5 0 ++ txt " " ++ numbers64 (map (fun e => fmul e MeV) energies)) 6 80 1;
        do sp <- text_wrap (fmt_e 5 0 ++ txt " " ++ numbers64 probabilities) 6 80 1;
        Ok ((txt "SI2 H " ++ si) ++ (txt "SP2 D " ++ sp))
    | DDp | DHe3 => Err ENotImplemented
    end.

  (** sdef_header, lines 151-236. The total is the built-in sum. *)
  Definition sdef_header64 (cit : citation) (r : reaction) (r_data temps : list f64) : res text :=
    let strength := pysum64 r_data in
    do ion_temp <- mean_ion_temp64 r_data temps;
    do cards <- energy_cards64 r ion_temp;
    Ok (
      line (txt "C ============================") ++
      line (txt "C SDEF Card for Tokamak Neutron Source generated by:") ++
      line (txt "C " ++ cit_repository cit) ++
      line (txt "C ============================") ++
      line (txt "C") ++
      line (txt "C ============================") ++
      line (txt "C Authors:") ++
      line (join [newline] (map author_line (cit_authors cit))) ++
      line (txt "C ============================") ++
      line (txt "C") ++
      line (txt "C ============================") ++
      line (txt "C Method:") ++
      line (txt "C 1. Create a cylinder that encloses the entire torus.") ++
      line (txt "C 2. Then slice the cylinder along the R-axis.") ++
      line (txt "C 3. Finally, define the vertical distribution, assuming rotational symmetry.") ++
      line (txt "C ============================") ++
      line (txt "C") ++
      line (txt "C ============================") ++
      line (txt "C Reaction channel: " ++ txt (label r)) ++
      line (txt "C Total source neutrons: " ++ show64_5e strength ++ txt " n/s") ++
      line (txt "C ============================") ++
      line (txt "C") ++
      line (txt "C 1. Neutron Emission Probability - Set up cylindrical source") ++
      line (txt "C") ++
      line (txt "sdef erg=d2 par=1 wgt=1") ++
      line (txt "      pos = 0 0 0    $ Center = origin") ++
      line (txt "      axs = 0 0 1    $ Cylinder points along the Z axis") ++
      line (txt "      rad = d3       $ radial distribution defined by distribution 3") ++
      line (txt "      ext = frad d4  $ extent distribution defined by distribution 4 which is dependent on distribution rad") ++
      cards ++ line (txt "C") ++
      line (txt "C 2. Neutron Emission Probability - Radial Distribution") ++
      line (txt "C")).

  (** The content of the file of one reaction, lines 61-62 and 71-108; r, z and dr in cm. *)
  Definition file_content64 (cit : citation) (r z : list f64) (dr : f64) (temps : list f64) (reac : reaction) (r_data : list f64) : res text :=
    let drad := fdiv dr (f64_of_Z 2) in
    do header <- sdef_header64 cit reac r_data temps;
    do bounds <- r_bounds64 r drad dr;
    let zi := z_ints64 r in
    do si <- si3_card64 bounds;
    do sp <- sp3_card64 r_data zi;
    do ds <- ds4_card (length bounds);
    do cs <- vertical_dist_cards64 z drad r_data 0 (ranges zi);
    Ok (header ++ si ++ sp ++ ds ++
        line (txt "C") ++ line (txt "C 3. Neutron Emission Probability - Vertical Distribution") ++ line (txt "C") ++
        concat (map (fun c => fst c ++ snd c) cs)).

  (** The loop of write_mcnp_sdef_source, lines 66-111: the files written before the end or the exception, and the outcome. *)
  Fixpoint write_files64 (cit : citation) (stub : text) (r z : list f64) (dr : f64) (temps : list f64) (st : dict (list f64))
    : list (text * text) * res unit :=
    match st with
    | [] => ([], Ok tt)
    | (reac, r_data) :: st' =>
        if is_neutronic reac then
          match (do name <- file_name stub reac; do t <- file_content64 cit r z dr temps reac r_data; Ok (name, t)) with
          | Ok (name, t) => let '(files, out) := write_files64 cit stub r z dr temps st' in ((name, t) :: files, out)
          | Err e => ([], Err e)
          | NonFinite => ([], NonFinite)
          end
        else write_files64 cit stub r z dr temps st'
    end.
  (** write_mcnp_sdef_source, lines 23-111. *)
  Definition write_mcnp_sdef_source64 (cit : citation) (stub : text) (r z : list f64) (cell_side_length : f64) (temps : list f64)
      (st : dict (list f64)) : list (text * text) * res unit :=
    write_files64 cit stub (map (fun x => fmul x cm) r) (map (fun x => fmul x cm) z) (fmul cell_side_length cm) temps st.
End Numpy.
