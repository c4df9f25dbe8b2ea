(** Independent specification for C104: SDEF files whose numbers were computed with rounding. *)
From Coq Require Import Ascii String List Bool Arith ZArith Reals.
From Flocq Require Import IEEE754.BinarySingleNaN.
From Verif Require Import Base Reactions Space Source SpecSource TextWrap SpecText SpecFormat Mcnp SpecMcnp FloatComp SpecFloatSource.
Import ListNotations.
Open Scope R_scope.

(** What an entry of a card must be: exactly as in C67, or a number that reads within [tol] of [x]. *)
Inductive entry := As (i : item) | About (x tol : R).
Definition reads_entry (e : entry) (w : text) : Prop :=
  match e with
  | As i => reads_item i w
  | About x tol => exists v, read_number w = Some v /\ Rabs (v - x) <= tol
  end.
Definition reads_entries (c : list entry) (ws : list text) : Prop := Forall2 reads_entry c ws.

(** A boundary x (cm) of a bin, of a cell of side h centred at c (m): five decimals, and a picometre-sized error for cells of ordinary size. *)
Definition edge (h c x : R) : entry := About x (5 / 10 ^ 6 * Rabs x + (Rabs c + h) / 10 ^ 12).
Definition edges64 (h : R) (centres : list R) : list entry :=
  map (fun c => edge h c (100 * (c - h / 2))) centres ++ [edge h (last centres 0) (100 * (last centres 0 + h / 2))].
(** A positive amount with five (six) decimals. *)
Definition amount (x : R) : entry := About x (6 / 10 ^ 6 * x).
Definition amount6 (x : R) : entry := About x (x / 10 ^ 6).

Definition words_ (l : list string) : list entry := map (fun s => As (Word s)) l.
(** MCNP's built-in fusion spectrum: code -1 for D-T, -2 for D-D, at temperature T (keV). *)
Definition fusion_card64 (code : string) (T : R) : list entry := words_ ["SP2"; "-4"]%string ++ [amount6 (T / 1000)] ++ words_ [code].
Definition radial_cards64 (h : R) (cs : list col) : list (list entry) :=
  [ words_ ["SI3"; "H"]%string ++ edges64 h (map fst cs);
    words_ ["SP3"; "D"]%string ++ [As (Num 0)] ++ map (fun c => amount (total (strengths c))) cs;
    words_ ["DS4"; "S"]%string ++ map (fun n => As (Nat n)) (seq 5 (length cs)) ].
Fixpoint column_cards64 (h : R) (n : nat) (cs : list col) : list (list entry) :=
  match cs with
  | [] => []
  | c :: cs' =>
      ([As (Key "SI" n); As (Word "H"%string)] ++ edges64 h (heights c)) ::
      ([As (Key "SP" n); As (Word "D"%string); As (Num 0)] ++ map (fun x => As (Num x)) (strengths c)) ::
      column_cards64 h (S n) cs'
  end.
(** The cards of the file of one reaction. *)
Definition expected_deck64 (energy : list (list entry)) (h : R) (cs : list col) : list (list entry) :=
  [map As sdef_card] ++ energy ++ radial_cards64 h cs ++ column_cards64 h 5 cs.

(** The energy cards of a reaction whose mean ion temperature is T (keV): the built-in spectra, or for T-T the table given for a
    temperature that differs from T by at most one part in 10^6. *)
Inductive expected_energy64 (table : f64 -> res (list f64 * list f64)) : reaction -> R -> list (list entry) -> Prop :=
| energy64_DT T : expected_energy64 table DT T [fusion_card64 "-1" T]
| energy64_DD T : expected_energy64 table DDn T [fusion_card64 "-2" T]
| energy64_TT T (T' : f64) e p : Rabs (B2R T' - T) <= T / 10 ^ 6 -> table T' = Ok (e, p) -> expected_energy64 table TT T
    [ words_ ["SI2"; "H"]%string ++ [As (Num 0)] ++ map (fun x => amount (B2R x / 1000)) e;
      words_ ["SP2"; "D"]%string ++ [As (Num 0)] ++ map (fun x => As (Num (B2R x))) p ].

(** Zero or positive, and not negative zero. *)
Definition unsigned (x : f64) : Prop := is_finite x = true /\ Bsign x = false.
(** 0, or a magnitude between 2^-100 and 2^100. *)
Definition moderate (x : f64) : Prop := is_finite x = true /\ (B2R x = 0 \/ two (-100) <= Rabs (B2R x) <= two 100).
(** Strengths: 0 or between 2^-300 and 2^150 per second. *)
Definition strength_ok (x : f64) : Prop := unsigned x /\ (B2R x = 0 \/ two (-300) <= B2R x <= two 150).
(** The table of the T-T spectrum is available at every temperature; its energies (keV) and probabilities are not negative. *)
Definition table_ok (table : f64 -> res (list f64 * list f64)) : Prop :=
  forall T, is_finite T = true -> 0 < B2R T -> exists e p, table T = Ok (e, p) /\ e <> [] /\ p <> [] /\
    Forall (fun x => unsigned x /\ moderate x) e /\ Forall unsigned p.
(** The factor for a change of unit has the value x, up to a few roundings. *)
Definition factor_ok (c : f64) (x : R) : Prop := is_finite c = true /\ Rabs (B2R c - x) <= x / 2 ^ 50.

(** Radii are not negative and listed in order; two different ones differ by more than rounding. *)
Fixpoint separated (r : list f64) : Prop :=
  match r with
  | a :: ((b :: _) as r') => (B2R a = B2R b \/ B2R a * (1 + / 2 ^ 40) < B2R b) /\ separated r'
  | _ => True
  end.
(** Cells whose file can be written: moderate coordinates in order. *)
Definition grid_ok (r z : list f64) (h : f64) : Prop :=
  r <> [] /\ length z = length r /\ INR (length r) <= 10 ^ 8 /\
  Forall (fun x => moderate x /\ 0 <= B2R x) r /\ separated r /\ Forall (fun x => is_finite x = true /\ Rabs (B2R x) <= two 100) z /\ moderate h /\ 0 < B2R h.
(** Ion temperatures between 2^-50 and 2^50 keV. *)
Definition temps_ok (temps : list f64) : Prop := Forall (between (-50) 50) temps.

Definition channel_ok (r : list f64) (channel : reaction * list f64) : Prop :=
  length (snd channel) = length r /\ Forall strength_ok (snd channel) /\ 0 < total (map B2R (snd channel)).
(** A file holds the cards of its channel: cells at (r, z) (m) of side h (m) with ion temperatures temps (keV), and names the total rate. *)
Definition holds_channel64 (table : f64 -> res (list f64 * list f64)) (stub : text) (r z : list f64) (h : f64) (temps : list f64)
    (channel : reaction * list f64) (file : text * text) : Prop :=
  fst file = name_of stub (fst channel) /\
  (exists energy, expected_energy64 table (fst channel) (weighted_mean (map B2R (snd channel)) (map B2R temps)) energy /\
    Forall2 reads_entries (expected_deck64 energy (B2R h) (columns (combine (combine (map B2R r) (map B2R z)) (map B2R (snd channel))))) (read_deck (snd file))) /\
  (exists w, In (txt "C Total source neutrons: " ++ w ++ txt " n/s") (lines (snd file)) /\ reads_entry (amount6 (total (map B2R (snd channel)))) w).
