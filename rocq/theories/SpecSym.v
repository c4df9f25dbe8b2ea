(** Independent specification for C90-C92: plasmas moved, enlarged, mirrored, or described from another starting point. *)
From Coq Require Import Reals List Permutation.
From Verif Require Import Base Reactions Space SpecSpace SpecFlux Transport Source.
Import ListNotations.
Open Scope R_scope.

(** Enlarged k-fold about the point (0, 0) of the poloidal plane, then moved up by b. *)
Definition enlarge (k b : R) (p : R * R) : R * R := (k * fst p, k * snd p + b).
(** Mirrored in the horizontal plane z = c: [mirror c] of SpecFlux. *)

(** The flux map of the plasma whose points are the images g p of the points p of another one. *)
Definition image (g : R * R -> R * R) (fm fm' : flux_map) : Prop :=
  fm_lcfs fm' = map g (fm_lcfs fm) /\ fm_o fm' = g (fm_o fm) /\ forall p, fm_psi_norm fm' (g p) = fm_psi_norm fm p.

(** A cell carried along by g, its volume multiplied by v. *)
Definition carry (g : R * R -> R * R) (v : R) (c : sample) : sample :=
  (fst (g (sx c, sz c)), snd (g (sx c, sz c)), v * svol c).

(** A source with its cells carried along and all strengths and rates multiplied by v. *)
Definition relocated (g : R * R -> R * R) (v : R) (v' : R) (side : R) (fm : flux_map) (s : source) : source :=
  {| source_type := source_type s; cells := map (carry g v) (cells s); cell_side := side; temperature := temperature s;
     strength := map (fun p => (fst p, map (fun x => v' * x) (snd p))) (strength s);
     num_reactions := map (fun p => (fst p, v' * snd p)) (num_reactions s);
     num_neutrons_ps := map (fun p => (fst p, v' * snd p)) (num_neutrons_ps s);
     src_map := fm; src_transport := src_transport s |}.

(** p lies on the straight line between a and b. *)
Definition on_edge (p a b : R * R) : Prop :=
  exists t, 0 <= t <= 1 /\ fst p = fst a + t * (fst b - fst a) /\ snd p = snd a + t * (snd b - snd a).
(** p lies on the closed curve through the points l (the last is joined to the first). *)
Fixpoint on_chain (p : R * R) (first : R * R) (l : list (R * R)) : Prop :=
  match l with
  | [] => False
  | a :: r => match r with [] => on_edge p a first | b :: _ => on_edge p a b end \/ on_chain p first r
  end.
Definition on_curve (p : R * R) (l : list (R * R)) : Prop := match l with [] => False | a :: _ => on_chain p a l end.

(** No cell centre falls exactly on the boundary. *)
Definition clear_of (l : list (R * R)) (o : R * R) (h : R) : Prop := forall i j, ~ on_curve (lattice o h i j) l.

(** s' holds the cells of s, carried along by g, in some order, with the same strengths; all rates and the power agree. *)
Definition rearranged (power_of : source -> R) (g : R * R -> R * R) (s s' : source) : Prop :=
  source_type s' = source_type s /\ Permutation (map (carry g 1) (cells s)) (cells s') /\
  (forall r, In r (source_type s) -> exists st st' n k,
     dget (strength s) r = Some st /\ dget (strength s') r = Some st' /\
     Permutation (map (fun p => (carry g 1 (fst p), snd p)) (combine (cells s) st)) (combine (cells s') st') /\
     dget (num_reactions s) r = Some n /\ dget (num_reactions s') r = Some n /\
     dget (num_neutrons_ps s) r = Some k /\ dget (num_neutrons_ps s') r = Some k) /\
  source_rate s' = source_rate s /\ source_T_rate s' = source_T_rate s /\ power_of s' = power_of s.

(** The same plasma with its boundary given by another list of points. *)
Definition with_lcfs (fm : flux_map) (l : list (R * R)) : flux_map := {| fm_lcfs := l; fm_o := fm_o fm; fm_psi_norm := fm_psi_norm fm |}.
(** The same source, remembering another flux map. *)
Definition with_map (fm : flux_map) (s : source) : source :=
  {| source_type := source_type s; cells := cells s; cell_side := cell_side s; temperature := temperature s; strength := strength s;
     num_reactions := num_reactions s; num_neutrons_ps := num_neutrons_ps s; src_map := fm; src_transport := src_transport s |}.

(** The list l' describes the closed curve of l from another starting point; either the last point is joined to the first
    implicitly, or the first point is repeated at the end. *)
Inductive restarted : list (R * R) -> list (R * R) -> Prop :=
  | restarted_open l1 l2 : restarted (l1 ++ l2) (l2 ++ l1)
  | restarted_closed v r1 w r2 : restarted (v :: r1 ++ w :: r2 ++ [v]) (w :: r2 ++ v :: r1 ++ [w]).
(** l' has further points along the straight segments of l (the segment from the last to the first point included). *)
Inductive refined : list (R * R) -> list (R * R) -> Prop :=
  | refined_refl l : refined l l
  | refined_between l a b r q l' : on_edge q a b -> refined (l ++ a :: q :: b :: r) l' -> refined (l ++ a :: b :: r) l'
  | refined_end a r b q l' : on_edge q b a -> refined (a :: r ++ [b; q]) l' -> refined (a :: r ++ [b]) l'.
