(** Independent specification for reaction selection (C01-C05) and reaction labels (C04, C10, C13).
    Written from the documentation; uses only the names of the five channels. *)
From Coq Require Import String Ascii List Arith Bool.
From Verif Require Import Reactions.
Import ListNotations.
Local Open Scope string_scope.
Local Open Scope list_scope.

(** The only accepted spellings and what they mean (C03). *)
Definition spellings : list (string * reaction) :=
  [ ("D-T", DT); ("D_T", DT); ("D-D", DDn); ("D_D", DDn);
    ("T-T", TT); ("T_T", TT); ("D-He3", DHe3); ("D_He3", DHe3) ].

(** What one item asks for; nothing if it is not recognised. *)
Inductive names : item -> reaction -> Prop :=
| names_str s r : In (s, r) spellings -> names (IStr s) r
| names_react r : names (IReact r) r.

(** What a whole argument asks for. *)
Inductive asks : source_arg -> reaction -> Prop :=
| asks_none r : In r [DDn; DT; TT] -> asks SNone r
| asks_str s r : names (IStr s) r -> asks (SStr s) r
| asks_react r : asks (SReact r) r
| asks_list l x r : In x l -> names x r -> asks (SList l) r.

(** Arguments that are valid: every item is recognised. *)
Definition valid_arg (a : source_arg) : Prop :=
  match a with
  | SNone => True
  | SStr s => exists r, names (IStr s) r
  | SReact _ => True
  | SList l => forall x, In x l -> exists r, names x r
  | SOther => False
  end.

(** Canonical order D-T, D-D(n), D-D(p), T-T, D-He3. *)
Definition rank (r : reaction) : nat :=
  match r with DT => 0 | DDn => 1 | DDp => 2 | TT => 3 | DHe3 => 4 end.

(** ** Labels: nuclides with (nucleon number, charge). *)
Inductive nuclide := nD | nT | nHe3 | nHe4 | nN | nP.
Definition nucleons (x : nuclide) : nat := match x with nD => 2 | nT => 3 | nHe3 => 3 | nHe4 => 4 | nN => 1 | nP => 1 end.
Definition charge (x : nuclide) : nat := match x with nD => 1 | nT => 1 | nHe3 => 2 | nHe4 => 2 | nN => 0 | nP => 1 end.
Definition nuclide_eq_dec (a b : nuclide) : {a = b} + {a <> b}. Proof. decide equality. Defined.

(** Words of a label and what they denote. *)
Definition word_meaning (w : string) : option (list nuclide) :=
  if string_dec w "D" then Some [nD]
  else if string_dec w "T" then Some [nT]
  else if string_dec w "³He" then Some [nHe3]
  else if string_dec w "⁴He" then Some [nHe4]
  else if string_dec w "n" then Some [nN]
  else if string_dec w "2n" then Some [nN; nN]
  else if string_dec w "p" then Some [nP]
  else None.

(** Split at blanks. *)
Fixpoint words_aux (cur s : string) : list string :=
  match s with
  | EmptyString => match cur with EmptyString => [] | _ => [cur] end
  | String c r =>
      if Ascii.eqb c " " then (match cur with EmptyString => words_aux "" r | _ => cur :: words_aux "" r end)
      else words_aux (cur ++ String c "")%string r
  end.
Definition words (s : string) : list string := words_aux "" s.

(** Parse "X + Y → P + Q" into reactants and products. *)
Fixpoint side (ws : list string) : option (list nuclide) :=
  match ws with
  | [] => Some []
  | w :: r => if string_dec w "+" then side r
              else match word_meaning w, side r with
                   | Some a, Some b => Some (a ++ b)
                   | _, _ => None
                   end
  end.
Fixpoint split_arrow (ws : list string) : option (list string * list string) :=
  match ws with
  | [] => None
  | w :: r => if string_dec w "→" then Some ([], r)
              else match split_arrow r with Some (a, b) => Some (w :: a, b) | None => None end
  end.
Definition equation (lab : string) : option (list nuclide * list nuclide) :=
  match split_arrow (words lab) with
  | Some (l, r) => match side l, side r with Some a, Some b => Some (a, b) | _, _ => None end
  | None => None
  end.
Definition total (f : nuclide -> nat) (l : list nuclide) : nat := fold_right (fun x n => f x + n) 0 l.
Definition count (x : nuclide) (l : list nuclide) : nat := count_occ nuclide_eq_dec l x.
