(** Independent specification for error messages (C75, C76). *)
From Coq Require Import Ascii String List Bool Arith.
From Verif Require Import SpecText.
Import ListNotations.
Local Open Scope nat_scope.

(** Everything but white space. *)
Definition ink (t : list ascii) : list ascii := filter (fun c => negb (is_blank c)) t.
(** Blanks and tabs. *)
Definition indentation (l : list ascii) : Prop := Forall (fun c => c = " "%char \/ c = "009"%char) l.
Definition one_line (l : list ascii) : Prop := Forall (fun c => c <> "010"%char) l.
(** Lines put together. *)
Fixpoint unlines (ls : list (list ascii)) : list ascii :=
  match ls with [] => [] | [l] => l | l :: r => l ++ "010"%char :: unlines r end.
(** The same lines, indented by [p]; lines without text may be indented in any way. *)
Inductive indented (p : list ascii) : list (list ascii) -> list (list ascii) -> Prop :=
| indented_nil : indented p [] []
| indented_text l ls ls' : indented p ls ls' -> indented p (l :: ls) ((p ++ l) :: ls')
| indented_empty l l' ls ls' : indentation l -> indentation l' -> indented p ls ls' -> indented p (l :: ls) (l' :: ls').
(** A word that stays in one piece: at most 70 characters, no hyphen between two letters or before another hyphen. *)
Definition short_word (w : list ascii) : Prop := length w <= 70 /\ no_hyphen_break w.
(** Text on one line without surrounding blanks. *)
Definition neat (t : list ascii) : Prop :=
  Forall (fun c => is_blank c = true -> c = " "%char) t /\
  (exists c r, t = c :: r /\ is_blank c = false) /\ (exists r c, t = r ++ [c] /\ is_blank c = false).
