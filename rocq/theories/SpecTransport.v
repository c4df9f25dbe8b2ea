(** Independent specification for C23-C27. *)
From Coq Require Import Reals List ZArith.
From Verif Require Import Base Profile Transport.
Import ListNotations.
Open Scope R_scope.

(** Calls a user may make on profile objects after building a transport information: rescale any
    profile object, or build further transport informations from any objects. *)
Inductive call :=
| CScale (r : ref) (s : R)
| CBuild (ion_temperature fuel_density : ref) (rho : list R) (c : comp).

Definition run1 (h : heap) (c : call) : heap :=
  match c with
  | CScale r s => heap_set_scale h r s
  | CBuild t n rho k => match from_parameterisations h t n rho k with Ok (h', _) => h' | _ => h end
  end.
Definition run (h : heap) (cs : list call) : heap := fold_left run1 cs h.

(** Total factor by which a call sequence rescales object [r]. *)
Fixpoint factor (r : ref) (cs : list call) : R :=
  match cs with
  | [] => 1
  | CScale r' s :: cs' => if Nat.eqb r r' then s * factor r cs' else factor r cs'
  | CBuild _ _ _ _ :: cs' => factor r cs'
  end.

(** A JETTO file whose matrices have one row per frame, each with the same number (>= 1) of radii. *)
Definition well_formed (f : jsp_file) : Prop :=
  let n := length (jTIME f) in
  length (jXPSQ f) = n /\ length (jTI f) = n /\ length (jNID f) = n /\ length (jNIT f) = n /\
  length (jR00 f) = n /\
  exists m, (0 < m)%nat /\
    Forall (fun row => length row = m) (jXPSQ f) /\ Forall (fun row => length row = m) (jTI f) /\
    Forall (fun row => length row = m) (jNID f) /\ Forall (fun row => length row = m) (jNIT f) /\
    Forall (fun row => length row = m) (jR00 f).

(** The frame that number [k] denotes in a file of [n] frames. *)
Definition frame_of (n : nat) (k : Z) : option nat :=
  if (k =? -1)%Z then (if Nat.eqb n 0 then None else Some (n - 1)%nat)
  else if (0 <=? k)%Z && (k <? Z.of_nat n)%Z then Some (Z.to_nat k) else None.
