(** Model of /repo/tokamak_neutron_source/reactivity.py:43-90 (density_weighted_reactivity) and 173-231 (_reactivity_channel_bosch_hale), of the
    coefficients in reactivity_data.py:87-145 and of main.py:122-135 (strengths of a new source) in IEEE binary64, the arithmetic
    numpy really uses. Reactivity.v and Source.v model the same functions with exact numbers. *)
From Coq Require Import ZArith List Bool.
From Flocq Require Import IEEE754.BinarySingleNaN.
From Verif Require Import Base Reactions FloatComp FloatSource FloatSpace.

(** The decimal literal n / 10^k of a Python source text, |n| < 2^53 and k <= 22: the nearest binary64 number (both operands of the division
    are exact, so it is the correctly rounded quotient). *)
Definition dec64 (n k : Z) : f64 :=
  fdiv (f64_of_Z n) (binary_normalize 53 1024 Hprec64 Hmax64 mode_NE (5 ^ k) k false).

(** BoschHaleCoefficients, reactivity_data.py:63-77. *)
Record bh64 := { t_min64 : f64; t_max64 : f64; bg64 : f64; mrc264 : f64; c0_64 : f64; c1_64 : f64; c2_64 : f64; c3_64 : f64; c4_64 : f64; c5_64 : f64; c6_64 : f64 }.
(** reactivity_data.py:88-105 *)
Definition bh64_DT : bh64 :=
  {| t_min64 := dec64 2 1; t_max64 := f64_of_Z 100; bg64 := dec64 343827 4; mrc264 := f64_of_Z 1124656;
     c0_64 := dec64 117302 14; c1_64 := dec64 151361 7; c2_64 := dec64 751886 7; c3_64 := dec64 460643 8;
     c4_64 := dec64 135 4; c5_64 := dec64 (-10675) 8; c6_64 := dec64 1366 8 |}.
(** reactivity_data.py:108-125 *)
Definition bh64_DDn : bh64 :=
  {| t_min64 := dec64 2 1; t_max64 := f64_of_Z 100; bg64 := dec64 313970 4; mrc264 := f64_of_Z 937814;
     c0_64 := dec64 543360 17; c1_64 := dec64 585778 8; c2_64 := dec64 768222 8; c3_64 := f0;
     c4_64 := dec64 (-2964) 9; c5_64 := f0; c6_64 := f0 |}.
(** reactivity_data.py:128-145 *)
Definition bh64_DDp : bh64 :=
  {| t_min64 := dec64 2 1; t_max64 := f64_of_Z 100; bg64 := dec64 313970 4; mrc264 := f64_of_Z 937814;
     c0_64 := dec64 565718 17; c1_64 := dec64 341267 8; c2_64 := dec64 199167 8; c3_64 := f0;
     c4_64 := dec64 10506 9; c5_64 := f0; c6_64 := f0 |}.
(** reactions.py:92, 100, 108, 121, 129. *)
Definition coeffs64 (r : reaction) : option bh64 :=
  match r with DT => Some bh64_DT | DDn => Some bh64_DDn | TT => None | DDp => Some bh64_DDp | DHe3 => None end.

(** np.sqrt, correctly rounded. *)
Definition fsqrt (x : f64) : f64 := Bsqrt mode_NE x.

(** Element of the result, reactivity.py:205-231. [spow] is the power of Python floats (bg**2), [vpow] and [vexp] what numpy's power and exp
    compute at this position of an array: they may differ between positions (vectorised code) and from platform to platform. *)
Definition bh_point64 (spow vpow : f64 -> f64 -> f64) (vexp : f64 -> f64) (d : bh64) (T : f64) : f64 :=
  if Bltb f0 T then
    let frac := fdiv (fmul T (fadd (c1_64 d) (fmul T (fadd (c3_64 d) (fmul T (c5_64 d))))))
                     (fadd f1 (fmul T (fadd (c2_64 d) (fmul T (fadd (c4_64 d) (fmul T (c6_64 d))))))) in
    let theta := fdiv T (fsub f1 frac) in
    let chi := vpow (fdiv (spow (bg64 d) f2) (fmul (f64_of_Z 4) theta)) (fdiv f1 (f64_of_Z 3)) in
    fmul (fmul (fmul (fmul (dec64 1 6) (c0_64 d)) theta) (fsqrt (fdiv chi (fmul (mrc264 d) (vpow T (f64_of_Z 3))))))
         (vexp (fmul (f64_of_Z (-3)) chi))
  else f0.

(** A warning with the range of temperatures that was detected, reactivity.py:196-202. *)
Inductive warning64 := WOutOfRange64 (tmin tmax : f64).

Section Libm.
  Variable spow : f64 -> f64 -> f64.
  (** numpy's power and exp at position i. *)
  Variables (vpow : nat -> f64 -> f64 -> f64) (vexp : nat -> f64 -> f64).

  (** _reactivity_channel_bosch_hale, reactivity.py:173-231. *)
  Definition channel_bosch_hale64 (temps : list f64) (d : bh64) : res (list f64 * list warning64) :=
    do lo <- np_min64 temps;
    do hi <- np_max64 temps;
    let w := if Bltb lo (t_min64 d) || Bltb (t_max64 d) hi then [WOutOfRange64 lo hi] else [] in
    Ok (map2 (fun i T => bh_point64 spow (vpow i) (vexp i) d T) (seq 0 (length temps)) temps, w).

  (** One cell's densities. *)
  Record dens64 := { nd64 : f64; nt64 : f64; nhe3_64 : f64 }.
  (** The density product, reactivity.py:78-88. *)
  Definition n1_n2_64 (r : reaction) (d : dens64) : f64 :=
    match r with
    | DDn | DDp => fdiv (fmul (nd64 d) (nd64 d)) f2
    | DT => fmul (nd64 d) (nt64 d)
    | TT => fdiv (fmul (nt64 d) (nt64 d)) f2
    | DHe3 => fmul (nd64 d) (nhe3_64 d)
    end.

  (** density_weighted_reactivity, reactivity.py:76-90, for the reactions with a Bosch-Hale fit and the methods AUTO and BOSCH_HALE; the others
      (cross-section integrals) are not modelled in binary64. *)
  Definition density_weighted_reactivity64 (temps : list f64) (ds : list dens64) (r : reaction) : option (res (list f64 * list warning64)) :=
    match coeffs64 r with
    | None => None
    | Some d => Some (do vw <- channel_bosch_hale64 temps d; Ok (map2 (fun n v => fmul (n1_n2_64 r n) v) ds (fst vw), snd vw))
    end.

  (** One round of the loop of the constructor, main.py:122-135: [energy] and [multiplicity] are reaction.total_energy and
      reaction.num_neutrons. *)
  Definition add_reaction64 (temps : list f64) (ds : list dens64) (vols : list f64) (r : reaction) (energy multiplicity : f64) : option (res (channel64 * list warning64)) :=
    match density_weighted_reactivity64 temps ds r with
    | None => None
    | Some x => Some (do vw <- x; Ok (new_channel64 energy multiplicity (map2 fmul (fst vw) vols), snd vw))
    end.
End Libm.
