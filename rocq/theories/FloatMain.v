(** Model of /repo/tokamak_neutron_source/main.py:118-141 (the constructor from the profile values on) in IEEE binary64. Source.v models the
    same code with exact numbers. *)
From Coq Require Import ZArith List Bool.
From Flocq Require Import IEEE754.BinarySingleNaN.
From Verif Require Import Base Reactions FloatComp FloatSource FloatSpace FloatReactivity.

Section Libm.
  Variable spow : f64 -> f64 -> f64.
  Variables (vpow : nat -> f64 -> f64 -> f64) (vexp : nat -> f64 -> f64).
  (** np.sum. *)
  Variable npsum : list f64 -> f64.
  (** reaction.total_energy (constants from pint and periodictable). *)
  Variable energy : reaction -> f64.

  (** The loop, main.py:122-135, over the reactions of source_type (which has no repetitions, main.py:65-70, so that every round adds one key
      to the dictionaries; they are kept together as channels). None: a reaction that is not modelled in binary64. *)
  Fixpoint add_reactions64 (temps : list f64) (ds : list dens64) (vols : list f64) (rs : list reaction) : option (res (list channel64 * list warning64)) :=
    match rs with
    | [] => Some (Ok ([], []))
    | r :: rs' =>
        match add_reaction64 spow vpow vexp temps ds vols r (energy r) (f64_of_Z (Z.of_nat (num_neutrons r))) with
        | None => None
        | Some (Ok (c, w)) => match add_reactions64 temps ds vols rs' with
            | Some x => Some (do y <- x; Ok (c :: fst y, w ++ snd y))
            | None => None
            end
        | Some (Err e) => Some (Err e)
        | Some NonFinite => Some NonFinite
        end
    end.

  (** main.py:118-141: with the optional normalisation at the end. *)
  Definition make_source64 (temps : list f64) (ds : list dens64) (vols : list f64) (rs : list reaction) (total_fusion_power : option f64)
      : option (res (list channel64 * list warning64)) :=
    match add_reactions64 temps ds vols rs with
    | None => None
    | Some x => Some (do y <- x;
        match total_fusion_power with
        | None => Ok y
        | Some P => do cs <- normalise64 npsum (fst y) P; Ok (cs, snd y)
        end)
    end.
End Libm.
