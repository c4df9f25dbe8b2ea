(** Python's number formatting as used by /repo/tokamak_neutron_source/mcnp_interface.py: f"{x:.5e}" (lines 83, 86,
    88, 137, 139, 144, 146, 198, 201), f"{x:5e}" (lines 189, 223) and f"{i:d}", f"{i}" (lines 96, 134, 139, 146).

    Python rounds the exact value of the double correctly, ties to even; here the same is done on the real number. Negative
    zero (which Python prints with a minus sign) is not distinguished from zero. *)
From Coq Require Import Ascii String List Bool Arith ZArith.
From Verif Require Import Base TextWrap.

(** The digit characters. *)
Definition digit (d : Z) : ascii := ascii_of_nat (48 + Z.to_nat d).
(** The last k decimal digits of n. *)
Fixpoint last_digits (k : nat) (n : Z) : text :=
  match k with O => [] | S k' => last_digits k' (n / 10) ++ [digit (n mod 10)] end.
(** str(n) for n >= 0; [fuel] bounds the number of digits. *)
Fixpoint show_fuel (fuel : nat) (n : Z) : text :=
  match fuel with
  | O => []
  | S fuel' => if (n <? 10)%Z then [digit n] else show_fuel fuel' (n / 10) ++ [digit (n mod 10)]
  end.
Definition show_Z (n : Z) : text := show_fuel (S (Z.to_nat (Z.log2 n))) n.
Definition show_nat (n : nat) : text := show_Z (Z.of_nat n).

(** Nearest integer, ties to even. *)
Definition round_even (y : R) : Z :=
  let f := Int_part y in
  let r := y - IZR f in
  if Rltb r (1 / 2) then f else if Rltb (1 / 2) r then (f + 1)%Z else if Z.even f then f else (f + 1)%Z.

(** floor(log10 m) *)
Definition exponent10 (m : R) : Z := Int_part (ln m / ln 10).

(** The exponent part: a sign and at least two digits. *)
Definition show_exponent (e : Z) : text :=
  txt "e" ++ (if (e <? 0)%Z then txt "-" else txt "+") ++
  (if (Z.abs e <? 100)%Z then last_digits 2 (Z.abs e) else show_Z (Z.abs e)).

(** The rounded mantissa (p + 1 digits) and exponent of m > 0. *)
Definition mantissa (p : nat) (m : R) : Z * Z :=
  let e := exponent10 m in
  let d := round_even (m * powerRZ 10 (Z.of_nat p - e)) in
  if (d =? 10 ^ (Z.of_nat p + 1))%Z then (10 ^ Z.of_nat p, e + 1)%Z else (d, e).

(** f"{x:.pe}" for p >= 1. *)
Definition fmt_e (p : nat) (x : R) : text :=
  let '(d, e) := if Reqb x 0 then (0, 0)%Z else mantissa p (Rabs x) in
  (if Rltb x 0 then txt "-" else []) ++ [digit (d / 10 ^ Z.of_nat p)] ++ txt "." ++ last_digits p d ++ show_exponent e.

(** f"{x:5e}": precision 6; at least 5 characters wide, which only matters for nan and inf. *)
Inductive fnum := Fin (x : R) | Nan | Inf (positive : bool).
Definition fmt_5e (x : fnum) : text :=
  match x with
  | Fin x => fmt_e 6 x
  | Nan => txt "  nan"
  | Inf true => txt "  inf"
  | Inf false => txt " -inf"
  end.
