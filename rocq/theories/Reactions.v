(** Model of /repo/tokamak_neutron_source/reactions.py and of
    /repo/tokamak_neutron_source/main.py:40-70 (_parse_source_type),
    /repo/tokamak_neutron_source/constants.py:285-360 (fusion energies). *)
From Coq Require Import String Ascii.
From Verif Require Import Base.
Local Open Scope string_scope.
Local Open Scope list_scope.

(** The five members of the two enums, reactions.py:84-131:
    Reactions.D_T, Reactions.D_D, Reactions.T_T, AneutronicReactions.D_D,
    AneutronicReactions.D_He3.  Enum members compare by identity, so members of different
    classes with the same name (D_D) are different. *)
Inductive reaction := DT | DDn | TT | DDp | DHe3.

Definition reaction_eq_dec (a b : reaction) : {a = b} + {a <> b}.
Proof. decide equality. Defined.
Definition reaction_eqb (a b : reaction) : bool := if reaction_eq_dec a b then true else false.

(** isinstance(r, Reactions): reactions.py:84-110 vs 113-131. *)
Definition is_neutronic (r : reaction) : bool :=
  match r with DT | DDn | TT => true | DDp | DHe3 => false end.

(** ReactionData.label, reactions.py:88, 96, 104, 117, 125 (UTF-8). *)
Definition label (r : reaction) : string :=
  match r with
  | DT => "D + T → ⁴He + n"
  | DDn => "D + D → ³He + n"
  | TT => "T + T → ⁴He + 2n"
  | DDp => "D + D → T + p"
  | DHe3 => "D + ³He → ⁴He + p"
  end.

(** ReactionData.num_neutrons, reactions.py:90, 98, 106, 119, 127. *)
Definition num_neutrons (r : reaction) : nat :=
  match r with DT => 1 | DDn => 1 | TT => 2 | DDp => 0 | DHe3 => 0 end%nat.

(** Enum[name] lookups: Reactions[string] (reactions.py:84-110) and
    AneutronicReactions[string] (reactions.py:113-131); None is KeyError. *)
Definition reactions_lookup (s : string) : option reaction :=
  if string_dec s "D_T" then Some DT
  else if string_dec s "D_D" then Some DDn
  else if string_dec s "T_T" then Some TT
  else None.
Definition aneutronic_lookup (s : string) : option reaction :=
  if string_dec s "D_D" then Some DDp
  else if string_dec s "D_He3" then Some DHe3
  else None.

(** str.replace("-", "_"), reactions.py:171 (on UTF-8 bytes, where it acts on the same
    positions because '-' and '_' are ASCII). *)
Fixpoint replace_hyphen (s : string) : string :=
  match s with
  | EmptyString => EmptyString
  | String c r => String (if Ascii.eqb c "-"%char then "_"%char else c) (replace_hyphen r)
  end.

(** An argument given where a reaction is expected: a string, an enum member, or anything else. *)
Inductive item := IStr (s : string) | IReact (r : reaction) | IOther.

(** _parse_reaction, reactions.py:147-183. *)
Definition parse_reaction (x : item) : res reaction :=
  match x with
  | IStr s =>
      let string := replace_hyphen s in
      match reactions_lookup string with
      | Some r => Ok r
      | None =>
          match aneutronic_lookup string with
          | Some r => Ok r
          | None => Err EReactivity
          end
      end
  | IReact r => Ok r
  | IOther => Err EReactivity
  end.

(** The source_type argument: None, a single string or member, a list, or anything else
    (e.g. a tuple). *)
Inductive source_arg :=
| SNone
| SStr (s : string)
| SReact (r : reaction)
| SList (l : list item)
| SOther.

(** CUSTOM_ORDER, main.py:40-46. *)
Definition custom_order : list reaction := [DT; DDn; DDp; TT; DHe3].

(** ordering = {r: i for i, r in enumerate(CUSTOM_ORDER)}; ordering[r], main.py:69-70.
    None is KeyError. *)
Fixpoint index_of (r : reaction) (l : list reaction) (i : nat) : option nat :=
  match l with
  | [] => None
  | x :: l' => if reaction_eqb r x then Some i else index_of r l' (S i)
  end.
Definition ordering (r : reaction) : res nat :=
  match index_of r custom_order 0 with Some i => Ok i | None => Err EKey end.

Definition memb (r : reaction) (l : list reaction) : bool :=
  existsb (reaction_eqb r) l.

(** seen = set(); [x for x in l if not (x in seen or seen.add(x))], main.py:65-66. *)
Fixpoint unique_from (seen l : list reaction) : list reaction :=
  match l with
  | [] => []
  | x :: l' => if memb x seen then unique_from seen l' else x :: unique_from (x :: seen) l'
  end.

(** sorted(l, key=...), main.py:70: keys are computed first (KeyError if absent), then a stable
    sort; modelled by insertion sort on (key, value) pairs, inserting after equal keys. *)
Fixpoint insert_key (p : nat * reaction) (l : list (nat * reaction)) : list (nat * reaction) :=
  match l with
  | [] => [p]
  | q :: l' => if Nat.leb (fst q) (fst p) then q :: insert_key p l' else p :: l
  end.
Definition sort_keys (l : list (nat * reaction)) : list (nat * reaction) :=
  fold_left (fun acc p => insert_key p acc) l [].
Definition sorted_by_order (l : list reaction) : res (list reaction) :=
  do kl <- mapM (fun r => do k <- ordering r; Ok (k, r)) l;
  Ok (map snd (sort_keys kl)).

(** _parse_source_type, main.py:49-70.  The list that is appended to is always a fresh list
    (literal or comprehension), so the caller's list is never mutated. *)
Definition parse_source_type (a : source_arg) : res (list reaction) :=
  do l <- match a with
          | SNone => Ok [DDn; DT; TT]
          | SStr s => do r <- parse_reaction (IStr s); Ok [r]
          | SReact r => do r' <- parse_reaction (IReact r); Ok [r']
          | SList l => mapM parse_reaction l
          | SOther => Err EReactivity
          end;
  let l := if memb DDn l then l ++ [DDp] else l in
  sorted_by_order (unique_from [] l).

(** ** Fusion energies, constants.py:285-360.

    The isotope masses come from pint / periodictable (constants.py:187-218): a parameter.
    raw_uc(_, "amu", "J") is multiplication by one positive constant (m*c^2). *)
Record masses := { mD : R; mT : R; mHe : R; mHe3 : R; mn : R; mp : R; me : R; amu_J : R }.

Local Open Scope R_scope.
(** E_DT_FUSION, constants.py:297-301. *)
Definition E_DT (m : masses) : R := (mD m + mT m - (mHe m + mn m)) * amu_J m.
(** E_DT_NEUTRON, constants.py:305-309. *)
Definition E_DT_neutron (m : masses) : R :=
  (mHe m - 2 * me m) / (mHe m - 2 * me m + mn m) * E_DT m.
(** E_DD_TP_FUSION, constants.py:313-319. *)
Definition E_DD_TP (m : masses) : R := (mD m + mD m - (mT m + mp m + me m)) * amu_J m.
(** E_DD_HE3N_FUSION, constants.py:323-327. *)
Definition E_DD_HE3N (m : masses) : R := (mD m + mD m - (mHe3 m + mn m)) * amu_J m.
(** E_DD_NEUTRON, constants.py:331-335. *)
Definition E_DD_neutron (m : masses) : R :=
  (mHe3 m - 2 * me m) / (mHe3 m - 2 * me m + mn m) * E_DD_HE3N m.
(** E_TT_FUSION, constants.py:339-343. *)
Definition E_TT (m : masses) : R := (mT m + mT m - (mHe m + 2 * mn m)) * amu_J m.
(** _TT_TO_5HE_Q_VALUE, _5HE_TO_4HE_Q_VALUE, E_TT_NEUTRON, constants.py:345-349. [keV_J]: raw_uc(1, "keV", "J"). *)
Definition Q_TT_5He (keV_J : R) : R := 10597 * keV_J.
Definition Q_5He_4He (m : masses) (keV_J : R) : R := E_TT m - Q_TT_5He keV_J.
Definition E_TT_neutron (m : masses) (keV_J : R) : R := (Q_TT_5He keV_J * 5 / 6 + Q_5He_4He m keV_J * 4 / 5) / 2.
(** E_DHE3_FUSION, constants.py:354-360. *)
Definition E_DHE3 (m : masses) : R := (mD m + mHe3 m - (mHe m + mp m + me m)) * amu_J m.

(** ReactionData.total_energy, reactions.py:89, 97, 105, 118, 126. *)
Definition total_energy (m : masses) (r : reaction) : R :=
  match r with
  | DT => E_DT m
  | DDn => E_DD_HE3N m
  | TT => E_TT m
  | DDp => E_DD_TP m
  | DHe3 => E_DHE3 m
  end.

(** _APPROX_NEUTRON_ENERGY, reactions.py:136-144. *)
Definition approx_neutron_energy (m : masses) (keV_J : R) (r : reaction) : R :=
  match r with
  | DDn => E_DD_neutron m
  | DT => E_DT_neutron m
  | TT => E_TT_neutron m keV_J
  | DDp | DHe3 => 0
  end.
