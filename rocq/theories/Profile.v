(** Model of /repo/tokamak_neutron_source/profile.py. *)
From Verif Require Import Base.

(** np.sign. *)
Definition np_sign (x : R) : R := if Rltb 0 x then 1 else if Rltb x 0 then -1 else 0.

(** ** scipy.interpolate.interp1d(x, y, kind="linear"), as used at profile.py:43, 48.

    The constructor copies x and y and sorts the pairs by x (stable merge sort). *)
Fixpoint insert_pair (p : R * R) (l : list (R * R)) : list (R * R) :=
  match l with
  | [] => [p]
  | q :: l' => if Rleb (fst q) (fst p) then q :: insert_pair p l' else p :: l
  end.
Definition sort_pairs (l : list (R * R)) : list (R * R) :=
  fold_left (fun acc p => insert_pair p acc) l [].

(** np.interp on a sorted table: the last node j with x[j] <= v; the value at that node if v is
    the node or j is the last one; else the straight line to node j+1. *)
Fixpoint interp_from (x0 y0 : R) (rest : list (R * R)) (v : R) : R :=
  match rest with
  | [] => y0
  | (x1, y1) :: rest' =>
      if Rleb x1 v then interp_from x1 y1 rest' v
      else (y1 - y0) / (x1 - x0) * (v - x0) + y0
  end.

Fixpoint last_x (x0 : R) (rest : list (R * R)) : R :=
  match rest with [] => x0 | (x1, _) :: r => last_x x1 r end.

(** interp1d.__call__: interpolation, then the bounds check, which raises ValueError
    (bounds_error defaults to True without a fill value). An empty table cannot be
    evaluated (np.interp raises ValueError). *)
Definition interp1d_call (tab : list (R * R)) (v : R) : res R :=
  match tab with
  | [] => Err EValue
  | (x0, y0) :: rest =>
      if Rltb v x0 then Err EValue
      else if Rltb (last_x x0 rest) v then Err EValue
      else Ok (interp_from x0 y0 rest v)
  end.

(** ** Profile objects: the three concrete classes, profile.py:29-48, 51-95, 98-177, with the
    multiplicative _scale of the base class (profile.py:14-26). [PData] holds the
    interpolator built by the constructor (the attributes _values and _rho are never read). *)
Inductive profile :=
| PData (tab : list (R * R)) (scale : R)
| PParab (core alpha beta : R) (scale : R)
| PPed (core ped sep alpha beta rho_ped : R) (scale : R).

(** DataProfile.__init__, profile.py:39-43: interp1d raises ValueError for arrays of different
    length (and cannot interpolate an empty one). *)
Definition data_profile (vals rho : list R) (scale : R) : res profile :=
  if Nat.eqb (length rho) (length vals) then
    match rho with
    | [] => Err EValue
    | _ => Ok (PData (sort_pairs (combine rho vals)) scale)
    end
  else Err EValue.

(** ParabolicProfile.__init__, profile.py:66-70. *)
Definition parabolic_profile (core alpha beta : R) : profile := PParab core alpha beta 1.

(** ParabolicPedestalProfile.__init__, profile.py:120-135. *)
Definition pedestal_profile (core ped sep alpha beta rho_ped : R) : profile :=
  PPed core ped sep alpha beta (clip 0 1 rho_ped) 1.

(** PlasmaProfile.set_scale, profile.py:24-26. *)
Definition set_scale (s : R) (p : profile) : profile :=
  match p with
  | PData t k => PData t (k * s)
  | PParab c a b k => PParab c a b (k * s)
  | PPed c d e a b r k => PPed c d e a b r (k * s)
  end.

(** The array expressions of value(), for one element of rho. Arrays are handled elementwise by
    numpy ([values] below); 0-d arrays are turned back into scalars (profile.py:177).
    np.where (profile.py:173) evaluates both branches and keeps one of them, so a
    non-finite value in the branch not taken has no effect. *)
Definition value (p : profile) (rho : R) : res R :=
  match p with
  | PData tab scale =>                                        (* profile.py:45-48 *)
      let rho := clip 0 1 rho in
      do v <- interp1d_call tab rho;
      Ok (scale * v)
  | PParab core alpha beta scale =>                           (* profile.py:91-95 *)
      let rho := clip 0 1 rho in
      do rb <- np_pow (Rabs rho) beta;
      let f := 1 - np_sign rho * rb in
      do fa <- np_pow (Rabs f) alpha;
      let values := core * np_sign f * fa in
      Ok (scale * values)
  | PPed core ped sep alpha beta rho_ped scale =>             (* profile.py:152-177 *)
      let rho := clip 0 1 rho in
      let core_part :=
        do q <- np_div rho rho_ped;
        do qb <- np_pow q beta;
        let term := clip 0 1 (1 - qb) in
        do ta <- np_pow term alpha;
        Ok (ped + (core - ped) * ta) in
      let ped_part :=
        if Reqb rho_ped 1 then Ok sep
        else do q <- np_div ((ped - sep) * (1 - rho)) (1 - rho_ped); Ok (sep + q) in
      do v <- (if Rltb rho rho_ped then core_part else ped_part);
      Ok (v * scale)
  end.

(** value(rho) for an array. *)
Definition values (p : profile) (rho : list R) : res (list R) := mapM (value p) rho.
