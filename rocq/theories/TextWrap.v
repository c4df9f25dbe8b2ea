(** Model of /repo/tokamak_neutron_source/mcnp_interface.py:248-282 (_text_wrap) and of the parts of Python's textwrap module it
    uses (wrap, indent), with TextWrapper's default options.

    Text is a list of characters. Simplification: ASCII text without the control characters 28-31 (which Python's
    str.strip counts as white space and textwrap's regular expression does not). *)
From Coq Require Import Ascii String List Bool Arith Lia.
From Verif Require Import Base.
Local Open Scope nat_scope.

Definition text := list ascii.
Definition txt (s : string) : text := list_ascii_of_string s.
Definition space : ascii := " "%char.
Definition newline : ascii := "010"%char.

(** str.isspace for the ASCII white space. *)
Definition is_space (c : ascii) : bool :=
  let n := nat_of_ascii c in (n =? 32) || ((9 <=? n) && (n <=? 13)).
(** text.expandtabs(8): a tab becomes blanks up to the next multiple of 8 columns; a line feed or a carriage return starts a new line. *)
Fixpoint expandtabs (col : nat) (t : text) : text :=
  match t with
  | [] => []
  | c :: t' => if Ascii.eqb c "009" then let n := 8 - col mod 8 in repeat space n ++ expandtabs (col + n) t'
               else c :: expandtabs (if Ascii.eqb c "010" || Ascii.eqb c "013" then 0 else S col) t'
  end.
(** TextWrapper._munge_whitespace: after expandtabs, every white space character becomes a blank. *)
Definition munge (t : text) : text := map (fun c => if is_space c then space else c) (expandtabs 0 t).

(** The character classes of TextWrapper.wordsep_re: \w, [^\d\W], and word characters with some punctuation. *)
Definition between (a b : nat) (c : ascii) : bool := (a <=? nat_of_ascii c) && (nat_of_ascii c <=? b).
Definition is_letter (c : ascii) : bool := between 65 90 c || between 97 122 c || Ascii.eqb c "_".
Definition is_w (c : ascii) : bool := is_letter c || between 48 57 c.
Definition is_punct (c : ascii) : bool := is_w c || existsb (Ascii.eqb c) ["!"; """"; "'"; "&"; "."; ","; "?"]%char.
Definition is_hyphen (c : ascii) : bool := Ascii.eqb c "-".

Fixpoint hyphens (t : text) : nat := match t with c :: t' => if is_hyphen c then S (hyphens t') else 0 | [] => 0 end.
(** (?=-{2,}\w): at least two hyphens, then a word character (hyphens are not word characters, so the whole run has to match). *)
Definition dash_ahead (t : text) : bool :=
  (2 <=? hyphens t) && match skipn (hyphens t) t with c :: _ => is_w c | [] => false end.
(** The look-behind for a character of is_punct; the text before the position is given last character first. *)
Definition punct_before (before : text) : bool := match before with c :: _ => is_punct c | [] => false end.
(** -(?:(?<=L{2}-)|(?<=L-L-))(?=L-?L) with L a letter: at a hyphen, given the text before it (last character first) and after it. *)
Definition hyphen_break (before after : text) : bool :=
  match before with
  | b1 :: b2 :: r => is_letter b1 && (is_letter b2 || (is_hyphen b2 && match r with b3 :: _ => is_letter b3 | [] => false end))
  | _ => false
  end &&
  match after with
  | a1 :: a2 :: r => is_letter a1 && (is_letter a2 || (is_hyphen a2 && match r with a3 :: _ => is_letter a3 | [] => false end))
  | _ => false
  end.
(** The third alternative of wordsep_re, after its first character: how many more characters are matched. *)
Fixpoint word_rest (before t : text) : nat :=
  match t with
  | [] => 0
  | c :: t' => if is_space c then 0
               else if is_hyphen c && hyphen_break before t' then 1
               else if punct_before before && dash_ahead t then 0
               else S (word_rest (c :: before) t')
  end.
Fixpoint spaces (t : text) : nat := match t with c :: t' => if is_space c then S (spaces t') else 0 | [] => 0 end.
(** The length of the match of wordsep_re at a position that is not the end. *)
Definition chunk_length (before t : text) : nat :=
  match t with
  | [] => 0
  | c :: t' => if is_space c then spaces t
               else if punct_before before && dash_ahead t then hyphens t
               else S (word_rest (c :: before) t')
  end.
(** TextWrapper._split: there is a match at every position, so re.split cuts the text into consecutive matches. [fuel] = number of characters. *)
Fixpoint split_from (fuel : nat) (before t : text) : list text :=
  match fuel, t with
  | S fuel', _ :: _ => let n := chunk_length before t in firstn n t :: split_from fuel' (rev (firstn n t) ++ before) (skipn n t)
  | _, _ => []
  end.
Definition split_chunks (t : text) : list text := split_from (length t) [] t.

(** s.strip() == "" *)
Definition blank (t : text) : bool := forallb is_space t.

(** The inner loop of _wrap_chunks: chunks that fit on the current line, and the rest. *)
Fixpoint take_fit (width cur : nat) (chunks : list text) : list text * list text :=
  match chunks with
  | [] => ([], [])
  | c :: r => if cur + length c <=? width
              then let '(line, rest) := take_fit width (cur + length c) r in (c :: line, rest)
              else ([], chunks)
  end.

(** chunk.rfind("-", 0, n): the last position before n holding a hyphen. *)
Fixpoint rfind_hyphen (t : text) (n : nat) : option nat :=
  match t, n with
  | c :: t', S n' => match rfind_hyphen t' n' with
                     | Some k => Some (S k)
                     | None => if Ascii.eqb c "-" then Some 0 else None
                     end
  | _, _ => None
  end.
(** TextWrapper._handle_long_word, for a chunk longer than the width: the part put on the current line, and what is left. *)
Definition handle_long_word (width cur : nat) (chunk : text) : text * text :=
  let space_left := if width <? 1 then 1 else width - cur in
  let cut := match (if space_left <? length chunk then rfind_hyphen chunk space_left else None) with
             | Some h => if (0 <? h) && existsb (fun c => negb (Ascii.eqb c "-")) (firstn h chunk) then S h else space_left
             | None => space_left
             end in
  (firstn cut chunk, skipn cut chunk).

(** Drop the last chunk of a line if it is white space. *)
Definition drop_last_blank (line : list text) : list text :=
  match rev line with
  | c :: r => if blank c then rev r else line
  | [] => []
  end.

(** TextWrapper._wrap_chunks (max_lines is None, no indents). [started] is whether a line has been stored. Each round consumes a
    character, so [fuel] = number of characters suffices. *)
Fixpoint wrap_chunks (fuel : nat) (width : nat) (started : bool) (chunks : list text) : list text :=
  match fuel, chunks with
  | _, [] => []
  | 0, _ => []
  | S fuel', c :: r =>
      let chunks := if blank c && started then r else chunks in
      let '(line, rest) := take_fit width 0 chunks in
      let '(line, rest) :=
        match rest with
        | w :: rest' => if width <? length w
                        then let '(part, leftover) := handle_long_word width (length (concat line)) w in (line ++ [part], leftover :: rest')
                        else (line, rest)
        | [] => (line, rest)
        end in
      let line := drop_last_blank line in
      match line with
      | [] => wrap_chunks fuel' width started rest
      | _ => concat line :: wrap_chunks fuel' width true rest
      end
  end.

(** textwrap.wrap(text, width): ValueError if the width is not positive. *)
Definition wrap (t : text) (width : nat) : res (list text) :=
  if width =? 0 then Err EValue
  else let chunks := split_chunks (munge t) in
       Ok (wrap_chunks (length (concat chunks)) width false chunks).

(** "\n".join(lines) *)
Fixpoint join (sep : text) (l : list text) : text :=
  match l with [] => [] | [x] => x | x :: l' => x ++ sep ++ join sep l' end.
(** textwrap.indent of the joined lines: lines that are not blank get the prefix. *)
Definition indent_lines (prefix : text) (lines : list text) : list text :=
  map (fun l => if blank l then l else prefix ++ l) lines.
(** str.strip() *)
Fixpoint lstrip (t : text) : text := match t with [] => [] | c :: t' => if is_space c then lstrip t' else t end.
Definition strip (t : text) : text := rev (lstrip (rev (lstrip t))).

(** _text_wrap, mcnp_interface.py:248-282. *)
Definition text_wrap (long_line : text) (indent max_length new_lines : nat) : res text :=
  if indent <? 6 then Err EValue
  else do lines <- wrap long_line max_length;
       Ok (strip (join [newline] (indent_lines (repeat space indent) lines)) ++ repeat newline new_lines).
