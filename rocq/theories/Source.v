(** Model of /repo/tokamak_neutron_source/main.py:73-333 (TokamakNeutronSource). *)
From Verif Require Import Base Reactions Profile Transport Space Reactivity.

(** Dictionaries with reaction keys, in insertion order. *)
Definition dict (A : Type) := list (reaction * A).
Fixpoint dget {A} (d : dict A) (r : reaction) : option A :=
  match d with [] => None | (k, a) :: d' => if reaction_eqb r k then Some a else dget d' r end.
(** d[r] = a *)
Fixpoint dset {A} (d : dict A) (r : reaction) (a : A) : dict A :=
  match d with
  | [] => [(r, a)]
  | (k, b) :: d' => if reaction_eqb r k then (k, a) :: d' else (k, b) :: dset d' r a
  end.
(** d[r] in an expression: KeyError if absent. *)
Definition dlookup {A} (d : dict A) (r : reaction) : res A :=
  match dget d r with Some a => Ok a | None => Err EKey end.

(** The FluxMap attributes the constructor uses (flux.py:689-700 and the interpolators 509-686): boundary points, O-point
    and the psi_norm interpolator, a function of the position that may raise. *)
Record flux_map := { fm_lcfs : list (R * R); fm_o : R * R; fm_psi_norm : R * R -> res R }.

(** The attributes of a TokamakNeutronSource, main.py:105-138. *)
Record source := {
  source_type : list reaction;
  cells : list sample;                        (* x, z, d_volume *)
  cell_side : R;
  temperature : list R;
  strength : dict (list R);
  num_reactions : dict R;                     (* num_reactions_per_second *)
  num_neutrons_ps : dict R;                   (* num_neutrons_per_second *)
  src_map : flux_map;
  src_transport : transport }.

Section Masses.
  Variables (m : masses) (u : units).

  (** One round of the loop, main.py:122-135. *)
  Definition add_reaction (temps : list R) (ds : list dens) (vols : list R) (meth : method)
      (acc : dict (list R) * dict R * dict R * list warning) (r : reaction)
      : res (dict (list R) * dict R * dict R * list warning) :=
    let '(st, nr, nn, ws) := acc in
    do (v, w) <- density_weighted_reactivity m u temps ds (IReact r) meth;
    let s := map2 Rmult v vols in
    let n := pysum s in
    Ok (dset st r s, dset nr r n, dset nn r (n * INR (num_neutrons r)), ws ++ w).

  Fixpoint add_reactions (temps : list R) (ds : list dens) (vols : list R) (meth : method)
      (acc : dict (list R) * dict R * dict R * list warning) (l : list reaction) :=
    match l with
    | [] => Ok acc
    | r :: l' => do acc <- add_reaction temps ds vols meth acc r; add_reactions temps ds vols meth acc l'
    end.

  (** calculate_total_fusion_power, main.py:169-187. *)
  Definition calculate_total_fusion_power (s : source) : res R :=
    do l <- mapM (fun r => do v <- dlookup (strength s) r; Ok (pysum (map (fun x => x * total_energy m r) v))) (source_type s);
    Ok (pysum l).

  (** The loop of normalise_fusion_power, main.py:208-211. *)
  Fixpoint rescale (k : R) (st : dict (list R)) (nr nn : dict R) (l : list reaction)
    : res (dict (list R) * dict R * dict R) :=
    match l with
    | [] => Ok (st, nr, nn)
    | r :: l' =>
        do v <- dlookup st r;
        let st := dset st r (map (fun x => x * k) v) in
        do a <- dlookup nr r;
        let nr := dset nr r (a * k) in
        do b <- dlookup nn r;
        let nn := dset nn r (b * k) in
        rescale k st nr nn l'
    end.

  (** normalise_fusion_power, main.py:189-211, for a Python float target. With no channels the actual
      power is the int 0 and the division raises; otherwise it is a numpy float. *)
  Definition normalise_fusion_power (s : source) (P : R) : res source :=
    do actual <- calculate_total_fusion_power s;
    do k <- (match source_type s with [] => Err EZeroDivision | _ => np_div P actual end);
    do (st, nr, nn) <- rescale k (strength s) (num_reactions s) (num_neutrons_ps s) (source_type s);
    Ok {| source_type := source_type s; cells := cells s; cell_side := cell_side s; temperature := temperature s;
          strength := st; num_reactions := nr; num_neutrons_ps := nn; src_map := src_map s; src_transport := src_transport s |}.

  (** TokamakNeutronSource.__init__, main.py:96-141. [inside] is matplotlib's polygon test; the profiles
      live in the heap [h] and are read here, once. Returns the object and the warnings logged. *)
  Definition make_source (inside : list (R * R) -> R * R -> bool) (h : heap) (tr : transport) (fm : flux_map)
      (arg : source_arg) (side : R) (total_fusion_power : option R) (meth : method) : res (source * list warning) :=
    do types <- parse_source_type arg;
    do cs <- sample_space_2d inside (fm_lcfs fm) (fm_o fm) side;
    do psi <- mapM (fun c => fm_psi_norm fm (fst (fst c), snd (fst c))) cs;
    do temps <- mapM (read h (temp_prof tr)) psi;
    do dd <- mapM (read h (d_prof tr)) psi;
    do dt <- mapM (read h (t_prof tr)) psi;
    do dh <- mapM (read h (he3_prof tr)) psi;
    let ds := map2 (fun a bc => {| nd := a; nt := fst bc; nhe3 := snd bc |}) dd (combine dt dh) in
    do (st, nr, nn, ws) <- add_reactions temps ds (map snd cs) meth ([], [], [], []) types;
    let s := {| source_type := types; cells := cs; cell_side := side; temperature := temps;
                strength := st; num_reactions := nr; num_neutrons_ps := nn; src_map := fm; src_transport := tr |} in
    match total_fusion_power with
    | None => Ok (s, ws)
    | Some P => do s' <- normalise_fusion_power s P; Ok (s', ws)
    end.

  (** Any number of later calls normalise_fusion_power(P). *)
  Fixpoint normalise_all (s : source) (Ps : list R) : res source :=
    match Ps with [] => Ok s | P :: Ps' => do s' <- normalise_fusion_power s P; normalise_all s' Ps' end.
End Masses.

(** source_rate, main.py:143-148. *)
Definition source_rate (s : source) : R := pysum (map snd (num_neutrons_ps s)).

(** dict.get(r, 0.0) *)
Definition dget0 (d : dict R) (r : reaction) : R := match dget d r with Some x => x | None => 0 end.
(** source_T_rate, main.py:150-167. *)
Definition source_T_rate (s : source) : R :=
  pysum [dget0 (num_reactions s) DT; 2.0 * dget0 (num_reactions s) TT].

(** plot, main.py:275-333: which reactions get an axis (in order), or the exception, and one warning
    per requested reaction that is not in the source. Drawing itself is not modelled, so
    neither is plot() of a source without channels. *)
Definition plot (s : source) (reactions : option (list reaction)) : res (list reaction) * list reaction :=
  match reactions with
  | None => (Ok (source_type s), [])
  | Some l =>
      let '(drawn, warned) := fold_left (fun acc r =>
          if memb r (source_type s) then (fst acc ++ [r], snd acc) else (fst acc, snd acc ++ [r])) l ([], []) in
      (match drawn with [] => Err ETNS | _ => Ok drawn end, warned)
  end.
