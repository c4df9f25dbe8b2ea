(** Independent specification for C94: the lines of a cross-section file. *)
From Coq Require Import Reals ZArith List.
From Verif Require Import XsData.
Import ListNotations.
Open Scope R_scope.

(** A file: comment lines, the lines that are not comments, comment lines. *)
Definition text_file (header body trailer : list line) : list line := header ++ body ++ trailer.
Definition comments (l : list line) : Prop := Forall (fun x => x = Comment) l.
(** No comment among the lines, and the first one has the two columns. *)
Definition data_block (l : list line) : Prop := ~ In Comment l /\ exists e s r, l = Row e s :: r.
(** All but the last two lines. *)
Definition before_footer (l : list line) : list line := firstn (length l - 2) l.
(** A row of the file as a knot of the interpolation: centre-of-mass energy in keV and cross section in m^2, from laboratory energy in MeV and barn
    (in the units of XsData), for masses m1 (collider) and m2 (target). *)
Definition knot (m1 m2 : R) (row : Z * Z) : R * R :=
  (IZR (fst row) / 10 ^ 9 * (m2 / (m1 + m2)) * 1000, IZR (snd row) / 10 ^ 43 * 1e-28).
Definition row (p : Z * Z) : line := Row (fst p) (snd p).
