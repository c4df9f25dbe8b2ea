(** Independent specification for the SDEF text properties: how MCNP reads an input file. *)
From Coq Require Import Ascii String List Bool Arith.
Import ListNotations.
Local Open Scope nat_scope.

Definition is_newline (c : ascii) : bool := Ascii.eqb c "010".
(** White space between words. *)
Definition is_blank (c : ascii) : bool := existsb (Ascii.eqb c) [" "; "009"; "010"; "011"; "012"; "013"]%char.

Definition nonempty {A} (w : list A) : list (list A) := match w with [] => [] | _ => [w] end.
(** Blank separated words of a line; [cur] is the word being read. *)
Fixpoint words_from (cur : list ascii) (t : list ascii) : list (list ascii) :=
  match t with
  | [] => nonempty cur
  | c :: t' => if is_blank c then nonempty cur ++ words_from [] t' else words_from (cur ++ [c]) t'
  end.
Definition words (t : list ascii) : list (list ascii) := words_from [] t.

(** Lines of a file. *)
Fixpoint lines_from (cur : list ascii) (t : list ascii) : list (list ascii) :=
  match t with
  | [] => nonempty cur
  | c :: t' => if is_newline c then cur :: lines_from [] t' else lines_from (cur ++ [c]) t'
  end.
Definition lines (t : list ascii) : list (list ascii) := lines_from [] t.

(** Everything from a dollar sign on is a comment. *)
Fixpoint before_dollar (t : list ascii) : list ascii :=
  match t with [] => [] | c :: t' => if Ascii.eqb c "$" then [] else c :: before_dollar t' end.
(** A line that starts with C and a blank, or is just C, is a comment. *)
Definition comment_line (t : list ascii) : bool :=
  match t with
  | c :: r => (Ascii.eqb c "C" || Ascii.eqb c "c") && match r with [] => true | d :: _ => is_blank d end
  | [] => false
  end.
(** Blanks in columns 1-5 continue the previous card. *)
Definition continuation (t : list ascii) : bool :=
  (5 <=? length t) && forallb (Ascii.eqb " ") (firstn 5 t).

(** The cards of a file: each is a list of words. A continuation line before any card starts a card. *)
Definition add_line (cards : list (list (list ascii))) (l : list ascii) : list (list (list ascii)) :=
  if comment_line l then cards
  else let w := words (before_dollar l) in
       if continuation l then match rev cards with [] => [w] | c :: r => rev ((c ++ w) :: r) end
       else cards ++ [w].
Definition read_deck (t : list ascii) : list (list (list ascii)) := fold_left add_line (lines t) [].

(** A character of a card: printable, not a dollar sign. *)
Definition plain (c : ascii) : Prop := 33 <= nat_of_ascii c <= 126 /\ c <> "$"%char.
(** A word of a card. *)
Definition plain_word (w : list ascii) : Prop := w <> [] /\ Forall plain w.
Definition letter (c : ascii) : Prop := 65 <= nat_of_ascii c <= 90 \/ 97 <= nat_of_ascii c <= 122 \/ c = "_"%char.
(** No hyphen stands between two letters or before another hyphen ([prev] is the character before): such a word is never broken at a hyphen.
    Numbers (1.0e-05, -3) and words such as 5-fold or T-6 are of this kind. *)
Fixpoint unbroken (prev : option ascii) (t : list ascii) : Prop :=
  match t with
  | [] => True
  | c :: t' => (c = "-"%char -> match t' with
                                | [] => True
                                | d :: _ => d <> "-"%char /\ (letter d -> match prev with Some p => ~ letter p | None => True end)
                                end) /\ unbroken (Some c) t'
  end.
Definition no_hyphen_break (t : list ascii) : Prop := unbroken None t.
