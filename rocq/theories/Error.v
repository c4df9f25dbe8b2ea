(** Model of /repo/tokamak_neutron_source/error.py:12-38: what a TNSError prints, and of the parts of Python's textwrap module it
    uses (fill, dedent; Python 3.10 - 3.13). ReactivityError, EnergySpectrumError and FluxSurfaceError inherit __str__.
    Simplification: as in TextWrap.v, ASCII text without the control characters 28-31. *)
From Coq Require Import Ascii String List Bool Arith.
From Verif Require Import Base TextWrap.
Local Open Scope nat_scope.

(** The class [ \t] of dedent's regular expressions. *)
Definition is_indent (c : ascii) : bool := Ascii.eqb c " " || Ascii.eqb c "009".
(** text.split("\n"), with the line being read in [cur]. The regular expressions of dedent are applied line by line (re.MULTILINE). *)
Fixpoint split_lines (cur t : text) : list text :=
  match t with
  | [] => [cur]
  | c :: t' => if Ascii.eqb c newline then cur :: split_lines [] t' else split_lines (cur ++ [c]) t'
  end.
(** _whitespace_only_re.sub('', text), on a line. *)
Definition clear_blank (l : text) : text := if forallb is_indent l then [] else l.
(** _leading_whitespace_re, on a line that is not empty after clear_blank. *)
Fixpoint leading (l : text) : text := match l with c :: l' => if is_indent c then c :: leading l' else [] | [] => [] end.
(** The loop of dedent over the indents: the longest common prefix of the margin so far and the next indent. The three cases of the
    loop (indent starts with margin, margin starts with indent, cut at the first difference) all give this. *)
Fixpoint common (a b : text) : text :=
  match a, b with
  | x :: a', y :: b' => if Ascii.eqb x y then x :: common a' b' else []
  | _, _ => []
  end.
Definition margin_of (lines : list text) : text :=
  match map leading (filter (fun l => negb (forallb is_indent l)) lines) with
  | [] => []
  | i :: r => fold_left common r i
  end.
(** re.sub('(?m)^' + margin, '', text), on a line. *)
Fixpoint remove_prefix (m l : text) : option text :=
  match m, l with
  | [], _ => Some l
  | x :: m', y :: l' => if Ascii.eqb x y then remove_prefix m' l' else None
  | _ :: _, [] => None
  end.
Definition cut_margin (m l : text) : text := match remove_prefix m l with Some l' => l' | None => l end.
(** textwrap.dedent(text) *)
Definition dedent (t : text) : text :=
  let ls := map clear_blank (split_lines [] t) in
  join [newline] (map (cut_margin (margin_of ls)) ls).

(** textwrap.fill(text): width 70. *)
Definition fill (t : text) : res text := do ls <- wrap t 70; Ok (join [newline] ls).

(** TNSError.__str__, error.py:17-26: fill(dedent(self.args[0])), for an exception with text arguments. *)
Definition tns_str (args : list text) : res text :=
  match args with
  | [] => Err EIndex
  | message :: _ => fill (dedent message)
  end.
