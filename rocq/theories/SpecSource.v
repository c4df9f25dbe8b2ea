(** Independent specification for the source properties C06-C12. *)
From Coq Require Import Reals List.
From Verif Require Import Base Reactions SpecReactions Profile Transport Space SpecSpace Reactivity SpecReactivity Source.
Import ListNotations.
Open Scope R_scope.

(** Objects a user can hold: constructed, then normalised any number of times (any targets). *)
Definition reachable (m : masses) (u : units) (s : source) : Prop :=
  exists inside h tr fm arg side P meth s0 ws Ps,
    make_source m u inside h tr fm arg side P meth = Ok (s0, ws) /\ normalise_all m s0 Ps = Ok s.

(** Plain mathematical sum. *)
Fixpoint total (l : list R) : R := match l with [] => 0 | x :: r => x + total r end.

(** The same source with every strength and rate multiplied by k. *)
Definition times (k : R) (s : source) : source :=
  {| source_type := source_type s; cells := cells s; cell_side := cell_side s; temperature := temperature s;
     strength := map (fun p => (fst p, map (fun x => x * k) (snd p))) (strength s);
     num_reactions := map (fun p => (fst p, snd p * k)) (num_reactions s);
     num_neutrons_ps := map (fun p => (fst p, snd p * k)) (num_neutrons_ps s);
     src_map := src_map s; src_transport := src_transport s |}.

(** Fusion power of a source from its strengths: sum over channels and cells of strength times energy. *)
Definition power (m : masses) (s : source) : R :=
  total (map (fun p => total (snd p) * total_energy m (fst p)) (strength s)).

(** Tritons consumed per reaction of a channel: those on the left of its label. *)
Definition tritons (r : reaction) : nat :=
  match equation (label r) with Some (lhs, _) => count nT lhs | None => 0 end.
(** Neutrons produced per reaction of a channel: those on the right of its label. *)
Definition neutrons (r : reaction) : nat :=
  match equation (label r) with Some (_, rhs) => count nN rhs | None => 0 end.
