(** Model of /repo/tokamak_neutron_source/tools.py:20-65 (_get_relpath, get_tns_root, get_tns_path), of the parts of tools.py:201-211
    (load_citation), reactivity_data.py:21-55 (ReactionCrossSection.__init__) and energy_data.py:29-51
    (TTNeutronEnergyDataSpectrum.__init__) that find a data file and read its name, and of the objects made when the library is imported
    (reactivity_data.py:80-84, energy_data.py:79).

    POSIX paths: os.sep is a slash, so path.replace at tools.py:63 does nothing. Text is a list of characters, as in TextWrap.v. *)
From Coq Require Import Ascii String List Bool Arith.
From Verif Require Import Base Reactions TextWrap XsData Reactivity.
Local Open Scope nat_scope.

Definition slash : ascii := "/"%char.
Definition is_slash (c : ascii) : bool := Ascii.eqb c slash.
(** t.split(sep) for one separating character, with the piece being read in [cur]. *)
Fixpoint split_at (sep : ascii) (cur t : text) : list text :=
  match t with
  | [] => [cur]
  | c :: t' => if Ascii.eqb c sep then cur :: split_at sep [] t' else split_at sep (cur ++ [c]) t'
  end.
Definition text_eqb (a b : text) : bool := if list_eq_dec ascii_dec a b then true else false.

(** A pathlib.PurePosixPath: its root (nothing, a slash or two slashes) and its parts. *)
Definition ppath : Type := text * list text.
(** pathlib drops empty pieces and single dots. *)
Definition pieces (t : text) : list text := filter (fun p => negb (text_eqb p []) && negb (text_eqb p (txt "."))) (split_at slash [] t).
(** posixpath.splitroot: exactly two leading slashes are kept. *)
Definition path_root (t : text) : text :=
  match t with
  | a :: b :: c :: _ => if is_slash a then if is_slash b && negb (is_slash c) then [slash; slash] else [slash] else []
  | [a; b] => if is_slash a then if is_slash b then [slash; slash] else [slash] else []
  | [a] => if is_slash a then [slash] else []
  | [] => []
  end.
(** Path(t) *)
Definition Path (t : text) : ppath := (path_root t, pieces t).
(** Path(p, t) and p / t: an absolute t replaces p. *)
Definition Path2 (p : ppath) (t : text) : ppath :=
  match t with
  | c :: _ => if is_slash c then Path t else (fst p, snd p ++ pieces t)
  | [] => p
  end.

(** os.path.split(t)[0]: up to the last slash, without the slashes at its end unless there is nothing else. *)
Fixpoint drop_to_slash (r : text) : text := match r with c :: r' => if is_slash c then r else drop_to_slash r' | [] => [] end.
Fixpoint drop_slashes (r : text) : text := match r with c :: r' => if is_slash c then drop_slashes r' else r | [] => [] end.
Definition path_head (t : text) : text :=
  let head := rev (drop_to_slash (rev t)) in
  if forallb is_slash head then head else rev (drop_slashes (rev head)).
(** sub in t *)
Fixpoint starts_with (sub t : text) : bool :=
  match sub, t with
  | [], _ => true
  | a :: sub', b :: t' => Ascii.eqb a b && starts_with sub' t'
  | _ :: _, [] => false
  end.
Fixpoint contains (sub t : text) : bool :=
  starts_with sub t || match t with _ :: t' => contains sub t' | [] => false end.

(** MOLAR_MASSES, constants.py:285-293; a missing key raises KeyError. *)
Definition molar_mass (m : masses) (t : text) : res R :=
  if text_eqb t (txt "D") then Ok (mD m) else if text_eqb t (txt "T") then Ok (mT m)
  else if text_eqb t (txt "He") then Ok (mHe m) else if text_eqb t (txt "He3") then Ok (mHe3 m)
  else if text_eqb t (txt "n") then Ok (mn m) else if text_eqb t (txt "p") then Ok (mp m)
  else if text_eqb t (txt "e") then Ok (me m) else Err EKey.

Section FileSystem.
  (** The file system (Path.is_dir, Path.is_file, the lines of a file) and the package folder, tokamak_neutron_source.__path__[0]. *)
  Variable is_dir is_file : ppath -> bool.
  Variable package : text.

  (** _get_relpath, tools.py:20-24 *)
  Definition get_relpath (folder : ppath) (subfolder : text) : res ppath :=
    let path := Path2 folder subfolder in
    if is_dir path then Ok path else Err EValue.
  (** get_tns_root, tools.py:30-43 *)
  Definition get_tns_root : text := path_head package.
  (** get_tns_path, tools.py:46-65 *)
  Definition get_tns_path (path subfolder : text) : res ppath :=
    if contains (txt "egg") get_tns_root then Ok (Path (slash :: subfolder))
    else do main_path <- get_relpath (Path get_tns_root) subfolder;
         get_relpath main_path path.
  (** The default of its second parameter, tools.py:46. *)
  Definition tns_folder : text := txt "tokamak_neutron_source".

  (** The file opened by load_citation, tools.py:210. *)
  Definition citation_path : res ppath :=
    do p <- get_tns_path (txt "data") tns_folder; Ok (Path2 p (txt "CITATION.cff")).
  (** energy_data.py:42-45 *)
  Definition spectrum_path (file_name : text) : res ppath :=
    do p <- get_tns_path (txt "data/spectra") tns_folder;
    let path := Path2 p file_name in
    if is_file path then Ok path else Err EEnergySpectrum.
  (** reactivity_data.py:33-36 *)
  Definition cross_section_path (file_name : text) : res ppath :=
    do p <- get_tns_path (txt "data/cross_sections") tns_folder;
    let path := Path2 p file_name in
    if is_file path then Ok path else Err EReactivity.

  Variable file_lines : ppath -> list line.
  (** file_name.split(".", maxsplit=1)[0].split("_"), reactivity_data.py:42 *)
  Definition name_pieces (file_name : text) : list text := split_at "_" [] (hd [] (split_at "." [] file_name)).
  (** ReactionCrossSection(file_name), reactivity_data.py:21-55: the name and the table with the reduced mass. The table is read
      before the file name is looked at. Unpacking fewer than two pieces raises ValueError, split[2] and split[3] IndexError. *)
  Definition reaction_cross_section (m : masses) (u : units) (file_name : text) : res (text * xsection) :=
    do path <- cross_section_path file_name;
    do rows <- genfromtxt (file_lines path) 2;
    match name_pieces file_name with
    | collider :: target :: products =>
        match products with
        | p1 :: p2 :: _ =>
            let name := collider ++ txt " + " ++ target ++ txt " -> " ++ p1 ++ txt " + " ++ p2 in
            do m1 <- molar_mass m collider;
            do m2 <- molar_mass m target;
            do xs <- make_xs u (file_lines path) m1 m2;
            Ok (name, xs)
        | _ => Err EIndex
        end
    | _ => Err EValue
    end.

  (** TT_XS, DT_XS, DD_TP_XS, DD_HE3N_XS, DHE3_HEP_XS, reactivity_data.py:80-84, with the reaction that uses each (reactions.py:91, 99, 107, 120, 128). *)
  Definition data_files : list (reaction * text) :=
    [ (TT, txt "T_T_He_2n.txt"); (DT, txt "D_T_He_n.txt"); (DDp, txt "D_D_T_p.txt"); (DDn, txt "D_D_He3_n.txt"); (DHe3, txt "D_He3_He_p.txt") ].
  (** What importing the library does with its data files: an exception makes the import fail. *)
  Definition import_data (m : masses) (u : units) : res (list (reaction * xsection)) :=
    do xs <- mapM (fun f => do nx <- reaction_cross_section m u (snd f); Ok (fst f, snd nx)) data_files;
    do _ <- spectrum_path (txt "T_T_spectra.txt");
    Ok xs.
End FileSystem.
