(** Model of the file operations of /repo/tokamak_neutron_source/mcnp_interface.py:66-111 (write_mcnp_sdef_source) and of
    main.py:244-262 (to_sdef_card): the calls open, write and close in the order in which they are made, until the end or the exception.

    [encodes] says which texts can be written in the encoding open() uses when none is given (mcnp_interface.py:100): a write of any other
    text raises UnicodeEncodeError, a ValueError. *)
From Coq Require Import Ascii String List Bool Arith ZArith.
From Verif Require Import Base Reactions Space Source SpectraData Energy TextWrap Format Mcnp.

(** FOpen: open(name, "w") (the file is created or emptied); FWrite, FClose: on the file that is open. *)
Inductive file_op := FOpen (name : text) | FWrite (t : text) | FClose.

Section Encoding.
  Variable encodes : text -> bool.
  Definition write (t : text) : res (list file_op) := if encodes t then Ok [FWrite t] else Err EValue.

  (** The loop over the columns, lines 105-108. The cards are generated one by one. *)
  Fixpoint vertical_writes (z : list R) (dzed : R) (r_data : list R) (i : nat) (l : list (Z * Z)) : list file_op * res unit :=
    match l with
    | [] => ([], Ok tt)
    | ab :: l' =>
        match (do c <- vertical_cards z dzed r_data i ab; write (fst c ++ snd c)) with
        | Ok ops => let '(ops', out) := vertical_writes z dzed r_data (S i) l' in (ops ++ ops', out)
        | Err e => ([], Err e)
        | NonFinite => ([], NonFinite)
        end
    end.
  (** One neutronic reaction, lines 68-108. The with statement closes the file after an exception as well. *)
  Definition channel_ops (d : tt_data) (cit : citation) (stub : text) (r z : list R) (dr : R) (temps : list R) (reac : reaction) (r_data : list R)
    : list file_op * res (list swarning) :=
    let drad := dr / 2 in
    let zi := z_ints r in
    match (do name <- file_name stub reac;
           do (header, w) <- sdef_header d cit reac r_data temps;
           do bounds <- r_bounds r drad dr;
           do si <- si3_card bounds;
           do sp <- sp3_card r_data zi;
           do ds <- ds4_card (length bounds);
           Ok (name, header ++ si ++ sp ++ ds ++
             line (txt "C") ++ line (txt "C 3. Neutron Emission Probability - Vertical Distribution") ++ line (txt "C"), w)) with
    | Ok (name, first, w) =>
        let '(ops, out) :=
          match write first with
          | Ok ops => let '(ops', out) := vertical_writes z drad r_data 0 (ranges zi) in (ops ++ ops', out)
          | Err e => ([], Err e)
          | NonFinite => ([], NonFinite)
          end in
        (FOpen name :: ops ++ [FClose], do _ <- out; Ok w)
    | Err e => ([], Err e)
    | NonFinite => ([], NonFinite)
    end.
  (** The loop over the reactions, lines 66-111. *)
  Fixpoint write_ops (d : tt_data) (cit : citation) (stub : text) (r z : list R) (dr : R) (temps : list R) (st : dict (list R))
    : list file_op * res (list swarning) :=
    match st with
    | [] => ([], Ok [])
    | (reac, r_data) :: st' =>
        if is_neutronic reac then
          let '(ops, out) := channel_ops d cit stub r z dr temps reac r_data in
          match out with
          | Ok w => let '(ops', out') := write_ops d cit stub r z dr temps st' in (ops ++ ops', do w' <- out'; Ok (w ++ w'))
          | e => (ops, e)
          end
        else write_ops d cit stub r z dr temps st'
    end.
  (** to_sdef_card, main.py:244-262, with write_mcnp_sdef_source, lines 57-59. *)
  Definition sdef_ops (d : tt_data) (cit : citation) (s : source) (filename : text) : list file_op * res (list swarning) :=
    write_ops d cit filename (map m_to_cm (map (fun c => fst (fst c)) (cells s))) (map m_to_cm (map (fun c => snd (fst c)) (cells s)))
      (m_to_cm (cell_side s)) (temperature s) (strength s).
End Encoding.
