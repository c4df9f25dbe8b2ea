(** Model of /repo/tokamak_neutron_source/constants.py:24-137 (TNSUnitRegistry: pint with the contexts temperature <-> energy <-> mass)
    and of constants.py:221-287 (units_compatible, raw_uc).

    A unit is a positive factor to SI base units and a dimension; which units a string denotes is pint's business and a parameter ([parse]).
    Simplifications: units are multiplicative (no offset units such as degC), unit arguments are strings, arithmetic is exact, values are real
    numbers (an array is converted element by element: raw_uc_array). *)
From Coq Require Import String.
From Verif Require Import Base.

(** Exponents of length, mass, time, current, temperature, substance, luminosity (pint's UnitsContainer of base dimensions). *)
Record dimension := Dim { dLength : Z; dMass : Z; dTime : Z; dCurrent : Z; dTemp : Z; dSubstance : Z; dLuminosity : Z }.
Definition dim_eqb (a b : dimension) : bool :=
  (dLength a =? dLength b)%Z && (dMass a =? dMass b)%Z && (dTime a =? dTime b)%Z && (dCurrent a =? dCurrent b)%Z &&
  (dTemp a =? dTemp b)%Z && (dSubstance a =? dSubstance b)%Z && (dLuminosity a =? dLuminosity b)%Z.
Definition dim_mul (a b : dimension) : dimension :=
  Dim (dLength a + dLength b) (dMass a + dMass b) (dTime a + dTime b) (dCurrent a + dCurrent b) (dTemp a + dTemp b)
      (dSubstance a + dSubstance b) (dLuminosity a + dLuminosity b).
Definition dim_div (a b : dimension) : dimension :=
  Dim (dLength a - dLength b) (dMass a - dMass b) (dTime a - dTime b) (dCurrent a - dCurrent b) (dTemp a - dTemp b)
      (dSubstance a - dSubstance b) (dLuminosity a - dLuminosity b).

Record unit_ := { scale : R; dim : dimension }.
(** A pint Quantity: a magnitude with a unit. *)
Definition quantity : Type := R * unit_.
Definition q_mul (a b : quantity) : quantity :=
  (fst a * fst b, {| scale := scale (snd a) * scale (snd b); dim := dim_mul (dim (snd a)) (dim (snd b)) |}).
Definition q_div (a b : quantity) : quantity :=
  (fst a / fst b, {| scale := scale (snd a) / scale (snd b); dim := dim_div (dim (snd a)) (dim (snd b)) |}).

(** "[temperature]", "[mass]", "[energy]", "[time]" *)
Definition d_temperature : dimension := Dim 0 0 0 0 1 0 0.
Definition d_mass : dimension := Dim 0 1 0 0 0 0 0.
Definition d_energy : dimension := Dim 2 1 (-2) 0 0 0 0.
Definition d_time : dimension := Dim 0 0 1 0 0 0 0.

Section Registry.
  (** self.Quantity("k_B") and self.Quantity("c^2"): their values in SI units. *)
  Variables (k_B c2 : R).
  (** pint's reading of a string as a quantity; None: UndefinedUnitError. *)
  Variable parse : string -> option quantity.

  Definition q_kB : quantity := (k_B, {| scale := 1; dim := dim_div d_energy d_temperature |}).
  Definition q_c2 : quantity := (c2, {| scale := 1; dim := Dim 2 0 (-2) 0 0 0 0 |}).

  Definition transformation : Type := dimension * dimension * (quantity -> quantity).
  (** _transform, constants.py:112-137: both directions, and the same per time. *)
  Definition transform_ (units_from units_to : dimension) (forward reverse : quantity -> quantity) : list transformation :=
    flat_map (fun form => [(form units_from, form units_to, forward); (form units_to, form units_from, reverse)])
      [(fun d => d); (fun d => dim_div d d_time)].
  (** _energy_temperature_context and _mass_energy_context, constants.py:66-110. *)
  Definition contexts : list transformation :=
    transform_ d_temperature d_energy (fun x => q_mul x q_kB) (fun x => q_div x q_kB) ++
    transform_ d_mass d_energy (fun x => q_mul x q_c2) (fun x => q_div x q_c2).

  (** pint's search for a path in the graph of the enabled contexts. Nothing to do between equal dimensions; otherwise a transformation,
      or two (no two dimensions of the graph are further apart). *)
  Definition find1 (a b : dimension) : option (quantity -> quantity) :=
    match find (fun t => dim_eqb (fst (fst t)) a && dim_eqb (snd (fst t)) b) contexts with
    | Some t => Some (snd t)
    | None => None
    end.
  Definition find2 (a b : dimension) : option (quantity -> quantity) :=
    let step (t : transformation) := match find1 (snd (fst t)) b with Some g => Some (fun q => g (snd t q)) | None => None end in
    match filter (fun t => dim_eqb (fst (fst t)) a && match step t with Some _ => true | None => false end) contexts with
    | t :: _ => step t
    | [] => None
    end.
  Definition apply_contexts (q : quantity) (b : dimension) : quantity :=
    let a := dim (snd q) in
    if dim_eqb a b then q
    else match find1 a b with
         | Some f => f q
         | None => match find2 a b with Some f => f q | None => q end
         end.
  (** Quantity.to(unit).magnitude. EType: DimensionalityError (a TypeError and a PintError). *)
  Definition to (q : quantity) (u : unit_) : res R :=
    let q' := apply_contexts q (dim u) in
    if dim_eqb (dim (snd q')) (dim u) then Ok (fst q' * scale (snd q') / scale u) else Err EType.

  (** ureg.Quantity(string). EAttribute: UndefinedUnitError (an AttributeError and a PintError). *)
  Definition Quantity_of (s : string) : res quantity := match parse s with Some q => Ok q | None => Err EAttribute end.
  (** ureg.Unit(string): ValueError if the string has a scaling factor. *)
  Definition Unit_of (s : string) : res unit_ := do q <- Quantity_of s; if Reqb (fst q) 1 then Ok (snd q) else Err EValue.

  (** raw_uc, constants.py:250-287. *)
  Definition raw_uc (value : R) (unit_from unit_to : string) : res R :=
    match (do uf <- Unit_of unit_from; do ut <- Unit_of unit_to; to (value, uf) ut) with
    | Err EValue =>
        do unit_from_q <- Quantity_of unit_from;
        do unit_to_q <- Quantity_of unit_to;
        do x <- to (value * fst unit_from_q, snd unit_from_q) (snd unit_to_q);
        if Reqb (fst unit_to_q) 0 then Err EZeroDivision else Ok (x / fst unit_to_q)
    | r => r
    end.
  Definition raw_uc_array (values : list R) (unit_from unit_to : string) : res (list R) := mapM (fun v => raw_uc v unit_from unit_to) values.
  (** units_compatible, constants.py:221-244: the two pint errors above are PintErrors, other errors pass through. *)
  Definition units_compatible (unit_1 unit_2 : string) : res bool :=
    match raw_uc 1 unit_1 unit_2 with
    | Ok _ => Ok true
    | Err EType | Err EAttribute => Ok false
    | Err e => Err e
    | NonFinite => NonFinite
    end.
End Registry.
