(** Model of /repo/tokamak_neutron_source/openmc_interface.py:65-188 (ring sources and the combined source) in IEEE binary64. OpenMC.v models the same
    code, with the energy distributions and their errors and warnings, with exact numbers. *)
From Coq Require Import ZArith List Bool.
From Flocq Require Import IEEE754.BinarySingleNaN.
From Verif Require Import Base Reactions FloatComp FloatSource FloatSpace.

(** The arguments of the constructors of a ring source. *)
Record ring64 (D : Type) := {
  mixture_p : list f64; mixture_d : list D;
  r_lim : list f64; r_prob : list f64; z_lim : list f64;
  ring_strength : f64 }.
Arguments mixture_p {D} _. Arguments mixture_d {D} _. Arguments r_lim {D} _. Arguments r_prob {D} _. Arguments z_lim {D} _. Arguments ring_strength {D} _.

(** raw_uc(x, 'm', 'cm'): pint multiplies by 1 / 0.01, which is 100.0. *)
Definition m_to_cm64 (x : f64) : f64 := fmul x (f64_of_Z 100).

Section Rings.
  Context {D : Type}.
  (** get_neutron_energy_spectrum, openmc_interface.py:27-62, for the method asked for: here any function of the reaction and the temperature. *)
  Variable spectrum : reaction -> f64 -> D.

  (** make_openmc_ring_source, openmc_interface.py:65-115. sum(r_lim_cm) adds numpy floats, starting from the int 0. *)
  Definition make_openmc_ring_source64 (r z half_cell_length : f64) (p : list f64) (d : list D) (strength : f64) : option (ring64 D) :=
    if Bltb f0 strength then
      let r_lim_cm := map m_to_cm64 [fsub r half_cell_length; fadd r half_cell_length] in
      let z_lim_cm := map m_to_cm64 [fsub z half_cell_length; fadd z half_cell_length] in
      Some {| mixture_p := p; mixture_d := d; r_lim := r_lim_cm; r_prob := map (fun x => fdiv x (pysum64 r_lim_cm)) r_lim_cm;
              z_lim := z_lim_cm; ring_strength := strength |}
    else None.

  (** n_strength, openmc_interface.py:153-157. *)
  Definition n_strength64 (st : list (reaction * list f64)) : list (reaction * list f64) :=
    map (fun p => (fst p, map (fun x => fmul x (f64_of_Z (Z.of_nat (num_neutrons (fst p))))) (snd p)))
        (filter (fun p => is_neutronic (fst p)) st).

  (** The inner loop, openmc_interface.py:165-170: weights and distributions of ring i. s[i] raises IndexError beyond the end. *)
  Fixpoint ring_channels64 (i : nat) (T : f64) (ns : list (reaction * list f64)) : res (list f64 * list D) :=
    match ns with
    | [] => Ok ([], [])
    | (r, s) :: ns' =>
        do x <- (match nth_error s i with Some x => Ok x | None => Err EIndex end);
        do y <- ring_channels64 i T ns';
        Ok (if Bltb f0 x then (x :: fst y, spectrum r T :: snd y) else y)
    end.

  (** One round of the outer loop, openmc_interface.py:161-185. *)
  Definition one_ring64 (l_2 : f64) (ns : list (reaction * list f64)) (source_rate : f64) (i : nat) (c : f64 * f64 * f64) : res (option (ring64 D)) :=
    let '(ri, zi, ti) := c in
    do y <- ring_channels64 i ti ns;
    let local_strength := pysum64 (fst y) in
    Ok (make_openmc_ring_source64 ri zi l_2 (map (fun w => fdiv w local_strength) (fst y)) (snd y) (fdiv local_strength source_rate)).

  Fixpoint rings64 (l_2 : f64) (ns : list (reaction * list f64)) (source_rate : f64) (i : nat) (l : list (f64 * f64 * f64)) : res (list (ring64 D)) :=
    match l with
    | [] => Ok []
    | c :: l' =>
        do src <- one_ring64 l_2 ns source_rate i c;
        do srcs <- rings64 l_2 ns source_rate (S i) l';
        Ok (match src with Some x => x :: srcs | None => srcs end)
    end.

  (** make_openmc_full_combined_source, openmc_interface.py:118-188, for a source with at least one channel (otherwise source_rate is the int 0). *)
  Definition make_openmc_full_combined_source64 (r z : list f64) (cell_side_length : f64) (temperature : list f64)
      (st : list (reaction * list f64)) (source_rate : f64) : res (list (ring64 D)) :=
    rings64 (fdiv cell_side_length f2) (n_strength64 st) source_rate 0 (combine (combine r z) temperature).
End Rings.
