(** Independent specification for C83: sums and scale factors with rounding. *)
From Coq Require Import ZArith Reals List Permutation.
From Flocq Require Import IEEE754.BinarySingleNaN.
From Verif Require Import FloatComp FloatSource.
Import ListNotations.
Local Open Scope R_scope.

(** [sums l x]: x is got by adding the numbers of [l], and zeros, with rounding after each addition, in any order and grouping. *)
Inductive sums : list f64 -> f64 -> Prop :=
| sums_zero z : is_finite z = true -> B2R z = 0 -> sums [] z
| sums_one x : sums [x] x
| sums_add l l1 l2 a b : Permutation l (l1 ++ l2) -> sums l1 a -> sums l2 b -> sums l (fadd a b).

(** The exact sum. *)
Definition exact_sum (l : list f64) : R := fold_right (fun x s => B2R x + s) 0 l.
(** [x] differs from [y] by at most [n] units in the last place of binary64 (2^-52). *)
Definition within (n : nat) (x y : R) : Prop := Rabs (x - y) <= INR n / 2 ^ 52 * y.

(** A power of two with any exponent. *)
Definition two (e : Z) : R := powerRZ 2 e.
(** Numbers in the range of the property. *)
Definition between (a b : Z) (x : f64) : Prop := is_finite x = true /\ two a <= B2R x <= two b.
(** The data of one channel: energy, neutrons per reaction, strengths; and the channel a new source has for it. *)
Definition data : Type := f64 * f64 * list f64.
Definition new64 (d : data) : channel64 := new_channel64 (fst (fst d)) (snd (fst d)) (snd d).
(** Numbers of ordinary size: energies between 2^-50 J and 2^-30 J (about 6 keV to 6 GeV), 0 or 1 to 2^10 neutrons per reaction, strengths 0 or between
    2^-300 and 2^150 per second. *)
Definition ordinary (d : data) : Prop :=
  between (-50) (-30) (fst (fst d)) /\ (is_finite (snd (fst d)) = true /\ (B2R (snd (fst d)) = 0 \/ 1 <= B2R (snd (fst d)) <= two 10)) /\
  Forall (fun s => is_finite s = true /\ (B2R s = 0 \/ two (-300) <= B2R s <= two 150)) (snd d).

(** The fusion power without rounding: strength times energy, over all cells and channels. *)
Definition power (c : channel64) : R := exact_sum (strength64 c) * B2R (energy64 c).
Definition total_power (cs : list channel64) : R := fold_right (fun c p => power c + p) 0 cs.
(** Number of cells, counted once per channel. *)
Definition cells_of (cs : list channel64) : nat := fold_right (fun c n => (length (strength64 c) + n)%nat) 0%nat cs.
(** The size of a source: cells of all channels and channels. *)
Definition size (ds : list data) : nat := cells_of (map new64 ds) + length ds.
(** The neutron rate without rounding. *)
Definition exact_rate (cs : list channel64) : R := fold_right (fun c r => exact_sum (strength64 c) * B2R (multiplicity64 c) + r) 0 cs.
(** Zero, of either sign. *)
Definition is_zero (x : f64) : Prop := is_finite x = true /\ B2R x = 0.
(** A source with numbers of ordinary size, not all strengths zero, at most 2^39 cells and channels together. *)
Definition ordinary_source (ds : list data) : Prop :=
  Forall ordinary ds /\ (exists d s, In d ds /\ In s (snd d) /\ 0 < B2R s) /\ INR (size ds) <= two 39.
