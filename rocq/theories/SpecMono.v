(** Independent specification for C89: one plasma is nowhere colder or thinner than another. *)
From Coq Require Import Reals List.
From Verif Require Import Base Reactions SpecReactions Profile Transport Source.
Import ListNotations.
Open Scope R_scope.

(** Temperatures (keV) up to which each fitted reactivity is claimed to rise. *)
Definition rises_to (r : reaction) : R := match r with DT => 66.5 | DDn => 900 | DDp => 343 | _ => 0 end.

(** At every flux label where both profiles of a pair can be read, the second value is at least the first. *)
Definition below (h : heap) (p : nat) (h' : heap) (p' : nat) : Prop :=
  forall psi a b, read h p psi = Ok a -> read h' p' psi = Ok b -> a <= b.
Definition nonnegative (h : heap) (p : nat) : Prop := forall psi a, read h p psi = Ok a -> 0 <= a.

Definition nowhere_denser (h : heap) (tr : transport) (h' : heap) (tr' : transport) : Prop :=
  (below h (d_prof tr) h' (d_prof tr') /\ nonnegative h (d_prof tr)) /\
  (below h (t_prof tr) h' (t_prof tr') /\ nonnegative h (t_prof tr)) /\
  (below h (he3_prof tr) h' (he3_prof tr') /\ nonnegative h (he3_prof tr)).

(** No cell, channel or total of the first source exceeds that of the second. *)
Definition no_less (m : masses) (s s' : source) (power_of : source -> R) : Prop :=
  source_type s' = source_type s /\ cells s' = cells s /\
  (forall r, In r (source_type s) -> exists l l' n n' k k',
     dget (strength s) r = Some l /\ dget (strength s') r = Some l' /\ Forall2 Rle l l' /\
     dget (num_reactions s) r = Some n /\ dget (num_reactions s') r = Some n' /\ n <= n' /\
     dget (num_neutrons_ps s) r = Some k /\ dget (num_neutrons_ps s') r = Some k' /\ k <= k') /\
  source_rate s <= source_rate s' /\ source_T_rate s <= source_T_rate s' /\
  ((forall r, In r (source_type s) -> 0 <= total_energy m r) -> power_of s <= power_of s').
