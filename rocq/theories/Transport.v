(** Model of /repo/tokamak_neutron_source/transport.py and of
    /repo/tokamak_neutron_source/tools.py:105-198 (load_jsp). *)
From Verif Require Import Base Profile.

(** ** FractionalFuelComposition, transport.py:22-51. *)
Record comp := { fD : R; fT : R; fHe3 : R }.

(** sum(astuple(self)), transport.py:45-46. *)
Definition comp_sum (c : comp) : R := pysum [fD c; fT c; fHe3 c].

(** __post_init__, transport.py:43-51, for Python floats (division by zero raises). Returns the stored
    composition and whether the renormalisation warning was logged. *)
Definition fuel_composition (D T He3 : R) : res (comp * bool) :=
  let c := {| fD := D; fT := T; fHe3 := He3 |} in
  if negb (Reqb (comp_sum c) 1) then
    let norm := comp_sum c in
    if Reqb norm 0 then Err EZeroDivision
    else Ok ({| fD := fD c / norm; fT := fT c / norm; fHe3 := fHe3 c / norm |}, true)
  else Ok (c, false).

(** DT_5050_MIXTURE, transport.py:54. *)
Definition dt_5050 : comp := {| fD := 0.5; fT := 0.5; fHe3 := 0 |}.

(** ** Profile objects live in a heap: Python variables and dataclass fields hold references, so
    set_scale through one reference is seen through all others. *)
Definition ref := nat.
Definition heap := list profile.
Definition read (h : heap) (r : ref) (rho : R) : res R :=
  match nth_error h r with Some p => value p rho | None => Err EAttribute end.
Definition alloc (h : heap) (p : profile) : heap * ref := (h ++ [p], length h).
Fixpoint update {A} (l : list A) (i : nat) (f : A -> A) : list A :=
  match l, i with
  | [], _ => []
  | a :: l', O => f a :: l'
  | a :: l', S i' => a :: update l' i' f
  end.
(** profile.set_scale(s) through a reference. *)
Definition heap_set_scale (h : heap) (r : ref) (s : R) : heap := update h r (set_scale s).
(** copy.deepcopy(profile): a new object with equal attributes (the interpolator of a
    DataProfile is copied as well). *)
Definition deepcopy (h : heap) (r : ref) : res (heap * ref) :=
  match nth_error h r with Some p => Ok (alloc h p) | None => Err EAttribute end.

(** TransportInformation, transport.py:57-65. *)
Record transport := {
  d_prof : ref; t_prof : ref; he3_prof : ref; temp_prof : ref; rho_prof : list R }.

(** from_parameterisations, transport.py:107-143. *)
Definition from_parameterisations (h : heap) (ion_temperature fuel_density : ref) (rho : list R) (c : comp)
  : res (heap * transport) :=
  do (h, d) <- deepcopy h fuel_density;
  let h := heap_set_scale h d (fD c) in
  do (h, t) <- deepcopy h fuel_density;
  let h := heap_set_scale h t (fT c) in
  do (h, he3) <- deepcopy h fuel_density;
  let h := heap_set_scale h he3 (fHe3 c) in
  Ok (h, {| d_prof := d; t_prof := t; he3_prof := he3; temp_prof := ion_temperature; rho_prof := rho |}).

(** cls(DataProfile(..), DataProfile(..), DataProfile(..), DataProfile(..), rho), transport.py:90-105, 161-176. *)
Definition from_arrays (h : heap) (dv tv hv Tv rho : list R) : res (heap * transport) :=
  do pd <- data_profile dv rho 1;
  do pt <- data_profile tv rho 1;
  do ph <- data_profile hv rho 1;
  do pT <- data_profile Tv rho 1;
  let (h, d) := alloc h pd in
  let (h, t) := alloc h pt in
  let (h, he3) := alloc h ph in
  let (h, T) := alloc h pT in
  Ok (h, {| d_prof := d; t_prof := t; he3_prof := he3; temp_prof := T; rho_prof := rho |}).

(** from_profiles, transport.py:67-105. *)
Definition from_profiles (h : heap) (ion_temperature fuel_density rho : list R) (c : comp) : res (heap * transport) :=
  from_arrays h (map (fun n => fD c * n) fuel_density) (map (fun n => fT c * n) fuel_density)
                (map (fun n => fHe3 c * n) fuel_density) ion_temperature rho.

(** ** load_jsp, tools.py:128-198.

    The content of a JETTO file as read by jetto_tools.read_binary_file (not modelled): the
    vector of times and one matrix (frame, radius) per quantity. *)
Record jsp_file := {
  jTIME : list R; jXPSQ : list (list R); jTI : list (list R);
  jNID : list (list R); jNIT : list (list R); jR00 : list (list R) }.

(** Python / numpy indexing l[i] with negative indices; IndexError outside. *)
Definition py_index {A} (l : list A) (i : Z) : res A :=
  let j := (if i <? 0 then i + Z.of_nat (length l) else i)%Z in
  if (j <? 0)%Z then Err EIndex
  else match nth_error l (Z.to_nat j) with Some a => Ok a | None => Err EIndex end.

(** SimpleJETTOOutput, tools.py:105-125. *)
Record jetto_output := {
  o_rho : list R; o_ti : list R; o_d : list R; o_t : list R; o_he3 : list R; o_rate : R }.

(** raw_uc(x, "eV", "keV"), constants.py:252-283: division by 1000 (pint not modelled). *)
Definition eV_to_keV (x : R) : R := x / 1000.

Definition load_jsp (f : jsp_file) (frame_number : Z) : res jetto_output :=
  let n := Z.of_nat (length (jTIME f)) in
  if (frame_number <? -1)%Z || (n - 1 <? frame_number)%Z then Err EValue
  else
    let t_index := (if frame_number =? -1 then n - 1 else frame_number)%Z in
    do rho <- py_index (jXPSQ f) t_index;
    do ti <- py_index (jTI f) t_index;
    do nd <- py_index (jNID f) t_index;
    do nt <- py_index (jNIT f) t_index;
    let he3 := map (fun _ => 0) rho in
    let rho := 0 :: rho in
    do ti0 <- py_index ti 0; let ti := ti0 :: ti in
    do d0 <- py_index nd 0; let nd := d0 :: nd in
    do t0 <- py_index nt 0; let nt := t0 :: nt in
    do h0 <- py_index he3 0; let he3 := h0 :: he3 in
    let ti := map eV_to_keV ti in
    do r00 <- py_index (jR00 f) t_index;
    do rate <- py_index r00 (-1);
    Ok {| o_rho := rho; o_ti := ti; o_d := nd; o_t := nt; o_he3 := he3; o_rate := rate |}.

(** from_jetto, transport.py:145-176. *)
Definition from_jetto (h : heap) (f : jsp_file) (frame_number : Z) : res (heap * transport) :=
  do o <- load_jsp f frame_number;
  from_arrays h (o_d o) (o_t o) (o_he3 o) (o_ti o) (o_rho o).
