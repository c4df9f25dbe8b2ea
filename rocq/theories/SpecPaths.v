(** Independent specification for data files (C81, C82): POSIX path names and the species in the name of a data file. *)
From Coq Require Import Ascii String List Bool.
Import ListNotations.

Definition str (s : string) : list ascii := list_ascii_of_string s.
Definition sep : ascii := "/"%char.
(** A path is ended by its end or by a slash. *)
Definition ends (rest : list ascii) : Prop := rest = [] \/ exists t, rest = sep :: t.
(** The names on a path: what is between slashes; nothing and a single dot are no names. *)
Inductive spells : list ascii -> list (list ascii) -> Prop :=
| spells_end : spells [] []
| spells_slash t l : spells t l -> spells (sep :: t) l
| spells_dot t l : ends t -> spells t l -> spells ("."%char :: t) l
| spells_name name t l : name <> [] -> name <> ["."%char] -> ~ In sep name -> ends t -> spells t l -> spells (name ++ t) (name :: l).
(** Paths from the root of the file system, which begin with one slash or with more than two (POSIX keeps exactly two apart), and paths relative to a folder. *)
Definition absolute (t : list ascii) : Prop := exists u, t = sep :: u /\ ((forall v, u <> sep :: v) \/ exists v, u = sep :: sep :: v).
Definition relative (t : list ascii) : Prop := forall u, t <> sep :: u.
(** The path from the root along the names [l]. *)
Definition from_root (l : list (list ascii)) : list ascii * list (list ascii) := ([sep], l).
(** [sub] occurs in [t]. *)
Definition occurs (sub t : list ascii) : Prop := exists a b, t = a ++ sub ++ b.
(** Pieces put together with underscores. *)
Fixpoint underscored (l : list (list ascii)) : list ascii :=
  match l with [] => [] | [p] => p | p :: r => p ++ "_"%char :: underscored r end.
