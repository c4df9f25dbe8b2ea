(** Model of /repo/tokamak_neutron_source/main.py:118-141 (rates of a new source), 168-187 (calculate_total_fusion_power) and
    189-211 (normalise_fusion_power) in IEEE binary64, the arithmetic numpy really uses. Source.v models the same functions with exact
    numbers; here the strengths of a new source are given. *)
From Coq Require Import ZArith List Bool.
From Flocq Require Import IEEE754.BinarySingleNaN.
From Verif Require Import Base FloatComp.

Definition fmul (x y : f64) : f64 := Bmult mode_NE x y.

(** The built-in sum over numpy floats: plain additions from 0, left to right. (CPython's compensated summation is only for items of
    the exact type float, and np.float64 is a subclass.) *)
Definition pysum64 (l : list f64) : f64 := fold_left fadd l f0.

(** One reaction of the source: its energy and number of neutrons (reactions.py, constants), and what is stored for it. *)
Record channel64 := { energy64 : f64; multiplicity64 : f64; strength64 : list f64; reactions64 : f64; neutrons64 : f64 }.

(** main.py:129-133 *)
Definition new_channel64 (energy multiplicity : f64) (strength : list f64) : channel64 :=
  let n := pysum64 strength in
  {| energy64 := energy; multiplicity64 := multiplicity; strength64 := strength; reactions64 := n; neutrons64 := fmul n multiplicity |}.

(** source_rate, main.py:143-148: the built-in sum of the neutron rates. *)
Definition source_rate64 (cs : list channel64) : f64 := pysum64 (map neutrons64 cs).

Section Numpy.
  (** np.sum of an array: adds in an order that depends on numpy's version and on the processor. *)
  Variable npsum : list f64 -> f64.

  (** calculate_total_fusion_power, main.py:168-187. *)
  Definition total_power64 (cs : list channel64) : f64 :=
    pysum64 (map (fun c => npsum (map (fun s => fmul s (energy64 c)) (strength64 c))) cs).
  (** The body of the loop, main.py:208-211. *)
  Definition rescale64 (k : f64) (c : channel64) : channel64 :=
    {| energy64 := energy64 c; multiplicity64 := multiplicity64 c; strength64 := map (fun s => fmul s k) (strength64 c);
       reactions64 := fmul (reactions64 c) k; neutrons64 := fmul (neutrons64 c) k |}.
  (** normalise_fusion_power, main.py:189-211. Without channels the power is the int 0 and the division raises. *)
  Definition normalise64 (cs : list channel64) (P : f64) : res (list channel64) :=
    match cs with
    | [] => Err EZeroDivision
    | _ => Ok (map (rescale64 (fdiv P (total_power64 cs))) cs)
    end.
  (** Any number of calls. *)
  Fixpoint normalise_all64 (cs : list channel64) (Ps : list f64) : res (list channel64) :=
    match Ps with [] => Ok cs | P :: Ps' => do cs' <- normalise64 cs P; normalise_all64 cs' Ps' end.
End Numpy.
