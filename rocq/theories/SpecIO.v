(** Independent specification for writing files (C80): what is on the disk while and after a program writes files one after the other. *)
From Coq Require Import Ascii List Bool.
From Verif Require Import McnpIO.
Import ListNotations.

Definition filename := list ascii.
Definition bytes := list ascii.
(** The files on the disk. *)
Definition disk : Type := filename -> option bytes.
Definition put (d : disk) (n : filename) (t : bytes) : disk := fun x => if list_eq_dec ascii_dec x n then Some t else d x.

(** The disk, and the file being written with what has been written to it. Opening a file empties it. *)
Definition state : Type := disk * option (filename * bytes).
Definition step (s : state) (o : file_op) : state :=
  match o, s with
  | FOpen n, (d, _) => (put d n [], Some (n, []))
  | FWrite t, (d, Some (n, w)) => (d, Some (n, w ++ t))
  | FWrite _, (d, None) => (d, None)
  | FClose, (d, Some (n, w)) => (put d n w, None)
  | FClose, (d, None) => (d, None)
  end.
Definition run (ops : list file_op) (s : state) : state := fold_left step ops s.
(** After a crash the file that was open holds some first part of what had been written: the rest was buffered. *)
Inductive crashed : state -> disk -> Prop :=
| crashed_idle d : crashed (d, None) d
| crashed_open d n w t rest : w = t ++ rest -> crashed (d, Some (n, w)) (put d n t).
(** What may be on the disk if the program is stopped at some point of [ops]. *)
Definition interrupted (ops : list file_op) (before after : disk) : Prop :=
  exists done todo, ops = done ++ todo /\ crashed (run done (before, None)) after.
(** The same files. *)
Definition same_disk (a b : disk) : Prop := forall n, a n = b n.
(** [before] with the files [l] written to it. *)
Definition with_files (before : disk) (l : list (filename * bytes)) : disk := fold_left (fun d f => put d (fst f) (snd f)) l before.
