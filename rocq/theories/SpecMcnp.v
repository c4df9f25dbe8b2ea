(** Independent specification for the SDEF file properties C57-C59, C61-C63, C67. *)
From Coq Require Import Ascii String List Bool Arith ZArith Reals.
From Verif Require Import Base Reactions SpecReactions Space Source SpecSource SpectraData Energy TextWrap SpecText SpecFormat Mcnp.
Import ListNotations.
Open Scope R_scope.

(** ** The columns of cells *)

(** A ring cell: radius, height, strength. *)
Definition cell := (R * R * R)%type.
(** A column: its radius, and the heights and strengths of its cells. *)
Definition col := (R * list (R * R))%type.
(** The columns of a list of cells: maximal runs of cells with one radius. *)
Fixpoint columns (l : list cell) : list col :=
  match l with
  | [] => []
  | (r, z, s) :: l' =>
      match columns l' with
      | (r', c) :: rest => if Req_EM_T r r' then (r, (z, s) :: c) :: rest else (r, [(z, s)]) :: (r', c) :: rest
      | [] => [(r, [(z, s)])]
      end
  end.
(** Cells are listed with the radius never decreasing. *)
Fixpoint by_radius (r : list R) : Prop :=
  match r with a :: ((b :: _) as r') => a <= b /\ by_radius r' | _ => True end.

Definition heights (c : col) : list R := map fst (snd c).
Definition strengths (c : col) : list R := map snd (snd c).

(** Boundaries (cm) of the histogram bins of cells of side h (m) with these centres (m). *)
Definition boundaries (h : R) (centres : list R) : list R :=
  map (fun x => 100 * (x - h / 2)) centres ++ [100 * (last centres 0 + h / 2)].
(** The bins between consecutive boundaries. *)
Fixpoint bins (b : list R) : list (R * R) :=
  match b with x :: ((y :: _) as b') => (x, y) :: bins b' | _ => [] end.
(** Neighbouring centres touch. *)
Fixpoint contiguous (h : R) (centres : list R) : Prop :=
  match centres with a :: ((b :: _) as l) => b = a + h /\ contiguous h l | _ => True end.

(** ** Expected cards *)

Inductive item :=
| Word (w : string)               (* this word *)
| Key (w : string) (n : nat)      (* this word followed by the number n, as in SI5 *)
| Num (x : R)                     (* the number x with five decimals *)
| Num6 (x : R)                    (* the number x with six decimals *)
| Nat (n : nat).                  (* the integer n *)
Definition reads_item (i : item) (w : text) : Prop :=
  match i with
  | Word s => w = txt s
  | Key s n => exists v, w = txt s ++ v /\ shows_nat v n
  | Num x => shows 5 w x
  | Num6 x => shows 6 w x
  | Nat n => shows_nat w n
  end.
Definition reads_card (c : list item) (ws : list text) : Prop := Forall2 reads_item c ws.

Definition sdef_card : list item :=
  map Word ["sdef"; "erg=d2"; "par=1"; "wgt=1"; "pos"; "="; "0"; "0"; "0"; "axs"; "="; "0"; "0"; "1"; "rad"; "="; "d3"; "ext"; "="; "frad"; "d4"]%string.
(** MCNP's built-in fusion spectrum: code -1 for D-T, -2 for D-D, at temperature T (keV). *)
Definition fusion_card (code : string) (T : R) : list item := [Word "SP2"%string; Word "-4"%string; Num6 (T / 1000); Word code].
Definition radial_cards (h : R) (cs : list col) : list (list item) :=
  [ [Word "SI3"; Word "H"]%string ++ map Num (boundaries h (map fst cs));
    [Word "SP3"; Word "D"; Num 0]%string ++ map (fun c => Num (total (strengths c))) cs;
    [Word "DS4"; Word "S"]%string ++ map Nat (seq 5 (length cs)) ].
Fixpoint column_cards (h : R) (n : nat) (cs : list col) : list (list item) :=
  match cs with
  | [] => []
  | c :: cs' =>
      ([Key "SI" n; Word "H"]%string ++ map Num (boundaries h (heights c))) ::
      ([Key "SP" n; Word "D"; Num 0]%string ++ map Num (strengths c)) ::
      column_cards h (S n) cs'
  end.
(** The cards of the file of one reaction. *)
Definition expected_deck (energy : list (list item)) (h : R) (cs : list col) : list (list item) :=
  [sdef_card] ++ energy ++ radial_cards h cs ++ column_cards h 5 cs.

(** The T-T spectrum at temperature T has energies e and probabilities p. *)
Definition tt_table (d : tt_data) (T : R) (e p : list R) : Prop := exists w, energy_spectrum d T TT SData = Ok (Some (e, p), w).
(** The energy cards of a reaction whose mean ion temperature is T (keV): the built-in spectra, or for T-T a table of the
    energies e (keV) and probabilities p of the T-T spectrum at T. *)
Inductive expected_energy (d : tt_data) : reaction -> R -> list (list item) -> Prop :=
| energy_DT T : expected_energy d DT T [fusion_card "-1" T]
| energy_DD T : expected_energy d DDn T [fusion_card "-2" T]
| energy_TT T e p : tt_table d T e p -> expected_energy d TT T
    [ [Word "SI2"; Word "H"; Num 0]%string ++ map (fun x => Num (x / 1000)) e;
      [Word "SP2"; Word "D"; Num 0]%string ++ map Num p ].

(** Numbers that a double can hold, and integers of at most 70 digits. *)
Definition items_in_range (deck : list (list item)) : Prop :=
  Forall (Forall (fun i => match i with
                           | Num x | Num6 x => double_range x
                           | Key _ n | Nat n => (Z.of_nat n < 10 ^ 70)%Z
                           | Word _ => True
                           end)) deck.

(** ** Other notions *)

(** Text without line breaks. *)
Definition one_line (t : text) : Prop := Forall (fun c => is_newline c = false) t.
(** The citation file names at least one author, and none of its entries has a line break. *)
Definition proper_citation (c : citation) : Prop :=
  cit_authors c <> [] /\ one_line (cit_repository c) /\
  Forall (fun a => one_line (fst (fst a)) /\ one_line (snd (fst a)) /\ one_line (snd a)) (cit_authors c).

(** Strength-weighted mean. *)
Definition weighted_mean (w x : list R) : R := total (map (fun p => fst p * snd p) (combine w x)) / total w.

(** ** Files *)

(** Channels that produce neutrons. *)
Definition neutronic (r : reaction) : bool := negb (neutrons r =? 0)%nat.
(** The file name extension of a channel. *)
Definition extension (r : reaction) : string :=
  match r with DT => "DT" | DDn => "DD" | TT => "TT" | DDp => "DD" | DHe3 => "D" end.
Definition name_of (stub : text) (r : reaction) : text := stub ++ txt "." ++ txt (extension r).
(** A file holds the cards of its channel: cells at (r, z) (m) of side h (m) with ion temperatures temps (keV). *)
Definition holds_channel (d : tt_data) (stub : text) (r z : list R) (h : R) (temps : list R) (channel : reaction * list R) (file : text * text) : Prop :=
  fst file = name_of stub (fst channel) /\
  exists energy, expected_energy d (fst channel) (weighted_mean (snd channel) temps) energy /\
    Forall2 reads_card (expected_deck energy h (columns (combine (combine r z) (snd channel)))) (read_deck (snd file)).
(** The channel can be written: strength not zero, a T-T spectrum exists, numbers in range. *)
Definition writable (d : tt_data) (r z : list R) (h : R) (temps : list R) (channel : reaction * list R) : Prop :=
  total (snd channel) <> 0 /\
  exists energy, expected_energy d (fst channel) (weighted_mean (snd channel) temps) energy /\
    items_in_range (expected_deck energy h (columns (combine (combine r z) (snd channel)))).
