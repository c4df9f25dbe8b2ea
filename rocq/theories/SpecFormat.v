(** Independent specification for the numbers of an SDEF file: reading a number back. *)
From Coq Require Import Ascii String List Bool Arith ZArith Reals.
Import ListNotations.
Open Scope R_scope.

(** The value of a digit character. *)
Definition digit_of (c : ascii) : option Z :=
  let n := nat_of_ascii c in
  if ((48 <=? n) && (n <=? 57))%nat then Some (Z.of_nat (n - 48)) else None.
(** The longest run of digits: its value (continuing from [acc]), its length and what follows. *)
Fixpoint read_digits (acc : Z) (k : nat) (t : list ascii) : Z * nat * list ascii :=
  match t with
  | c :: t' => match digit_of c with Some d => read_digits (acc * 10 + d) (S k) t' | None => (acc, k, t) end
  | [] => (acc, k, t)
  end.
(** An optional sign: +1 or -1. *)
Definition read_sign (t : list ascii) : Z * list ascii :=
  match t with
  | c :: t' => if Ascii.eqb c "-" then (-1, t')%Z else if Ascii.eqb c "+" then (1, t')%Z else (1, t)%Z
  | [] => (1, t)%Z
  end.
(** [sign] digits [. digits] [e [sign] digits] *)
Definition read_number (t : list ascii) : option R :=
  let '(s, t) := read_sign t in
  let '(i, ni, t) := read_digits 0 0 t in
  let '(f, nf, t) := match t with c :: t' => if Ascii.eqb c "." then read_digits 0 0 t' else (0%Z, O, t) | [] => (0%Z, O, t) end in
  if (ni + nf =? 0)%nat then None
  else
    let m := IZR s * (IZR i + IZR f / 10 ^ nf) in
    match t with
    | [] => Some m
    | c :: t' =>
        if (Ascii.eqb c "e" || Ascii.eqb c "E")%bool then
          let '(se, t') := read_sign t' in
          match read_digits 0 0 t' with
          | (x, S _, []) => Some (m * powerRZ 10 (se * x))
          | _ => None
          end
        else None
    end.

(** A word that shows the number x with p digits after the point: it reads as a number v within half a unit in the last place. *)
Definition shows (p : nat) (w : list ascii) (x : R) : Prop :=
  exists v, read_number w = Some v /\ Rabs (v - x) <= Rabs x * (5 / 10 ^ (S p)) /\ (0 < v <-> 0 < x) /\ (v < 0 <-> x < 0).
(** The decimal number n. *)
Definition shows_nat (w : list ascii) (n : nat) : Prop := read_number w = Some (INR n).

(** Zero, or of a magnitude that a double can have. *)
Definition double_range (x : R) : Prop := x = 0 \/ powerRZ 10 (-400) <= Rabs x <= powerRZ 10 400.
