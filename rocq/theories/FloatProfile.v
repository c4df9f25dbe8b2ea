(** Model of /repo/tokamak_neutron_source/profile.py in IEEE binary64, the arithmetic numpy really uses. Profile.v models the same file with
    exact numbers. *)
From Coq Require Import ZArith List Bool.
From Flocq Require Import IEEE754.BinarySingleNaN.
From Verif Require Import Base FloatComp FloatSource FloatSpace.

(** np.clip: NaN stays, of two equal numbers (zeros of either sign) the argument is kept. *)
Definition clip64 (lo hi x : f64) : f64 :=
  let y := if Bltb x lo then lo else x in
  if Bltb hi y then hi else y.

(** np.sign. *)
Definition sign64 (x : f64) : f64 :=
  if Bltb f0 x then f1 else if Bltb x f0 then f64_of_Z (-1) else if Beqb x f0 then f0 else x.

(** ** scipy.interpolate.interp1d(x, y, kind="linear"), profile.py:43, 48. The constructor sorts the rows by x (stable). *)
Fixpoint insert_row64 (p : f64 * f64) (l : list (f64 * f64)) : list (f64 * f64) :=
  match l with
  | [] => [p]
  | q :: l' => if Bleb (fst q) (fst p) then q :: insert_row64 p l' else p :: l
  end.
Definition sort_rows64 (l : list (f64 * f64)) : list (f64 * f64) := fold_left (fun acc p => insert_row64 p acc) l [].

(** slope * w + y of np.interp: compilers may use one fused operation for that, or two. *)
Definition muladd64 (fused : bool) (s w y : f64) : f64 := if fused then ffma s w y else fadd (fmul s w) y.

(** np.interp on a sorted table (numpy's arr_interp): the last node j with x[j] <= v; the value at that node if v is the node or j is the last
    one; else the straight line to node j+1, from the left or, if that gives NaN, from the right. *)
Fixpoint interp_from64 (fused : bool) (x0 y0 : f64) (rest : list (f64 * f64)) (v : f64) : f64 :=
  match rest with
  | [] => y0
  | (x1, y1) :: rest' =>
      if Bleb x1 v then interp_from64 fused x1 y1 rest' v
      else if Beqb x0 v then y0
      else
        let slope := fdiv (fsub y1 y0) (fsub x1 x0) in
        let r := muladd64 fused slope (fsub v x0) y0 in
        if is_nan r then
          let r' := muladd64 fused slope (fsub v x1) y1 in
          if is_nan r' && Beqb y0 y1 then y0 else r'
        else r
  end.

Fixpoint last_x64 (x0 : f64) (rest : list (f64 * f64)) : f64 :=
  match rest with [] => x0 | (x1, _) :: r => last_x64 x1 r end.

(** interp1d.__call__: ValueError outside the table. *)
Definition interp1d_call64 (fused : bool) (tab : list (f64 * f64)) (v : f64) : res f64 :=
  match tab with
  | [] => Err EValue
  | (x0, y0) :: rest =>
      if Bltb v x0 then Err EValue
      else if Bltb (last_x64 x0 rest) v then Err EValue
      else if is_nan v then Ok v
      else Ok (interp_from64 fused x0 y0 rest v)
  end.

(** ** The profile objects, profile.py:14-26, 29-48, 51-95, 98-177. *)
Inductive profile64 :=
| PData64 (tab : list (f64 * f64)) (scale : f64)
| PParab64 (core alpha beta : f64) (scale : f64)
| PPed64 (core ped sep alpha beta rho_ped : f64) (scale : f64).

(** DataProfile.__init__, profile.py:39-43. *)
Definition data_profile64 (vals rho : list f64) (scale : f64) : res profile64 :=
  if Nat.eqb (length rho) (length vals) then
    match rho with
    | [] => Err EValue
    | _ => Ok (PData64 (sort_rows64 (combine rho vals)) scale)
    end
  else Err EValue.
(** ParabolicProfile.__init__, profile.py:66-70. *)
Definition parabolic_profile64 (core alpha beta : f64) : profile64 := PParab64 core alpha beta f1.
(** ParabolicPedestalProfile.__init__, profile.py:120-135. *)
Definition pedestal_profile64 (core ped sep alpha beta rho_ped : f64) : profile64 :=
  PPed64 core ped sep alpha beta (clip64 f0 f1 rho_ped) f1.
(** PlasmaProfile.set_scale, profile.py:24-26. *)
Definition set_scale64 (s : f64) (p : profile64) : profile64 :=
  match p with
  | PData64 t k => PData64 t (fmul k s)
  | PParab64 c a b k => PParab64 c a b (fmul k s)
  | PPed64 c d e a b r k => PPed64 c d e a b r (fmul k s)
  end.

(** One element of value(rho). [pow] is what numpy's power computes at this position of the array (it may differ from position to position and
    from platform to platform). np.where (profile.py:173) computes both regions and keeps one. *)
Definition value64 (fused : bool) (pow : f64 -> f64 -> f64) (p : profile64) (rho : f64) : res f64 :=
  let rho := clip64 f0 f1 rho in
  match p with
  | PData64 tab scale =>                                      (* profile.py:45-48 *)
      do v <- interp1d_call64 fused tab rho;
      Ok (fmul scale v)
  | PParab64 core alpha beta scale =>                         (* profile.py:91-95 *)
      let f := fsub f1 (fmul (sign64 rho) (pow (Babs rho) beta)) in
      let values := fmul (fmul core (sign64 f)) (pow (Babs f) alpha) in
      Ok (fmul scale values)
  | PPed64 core ped sep alpha beta rho_ped scale =>           (* profile.py:152-177 *)
      let term := clip64 f0 f1 (fsub f1 (pow (fdiv rho rho_ped) beta)) in
      let core_part := fadd ped (fmul (fsub core ped) (pow term alpha)) in
      let ped_part :=
        if Beqb rho_ped f1 then sep
        else fadd sep (fdiv (fmul (fsub ped sep) (fsub f1 rho)) (fsub f1 rho_ped)) in
      Ok (fmul (if Bltb rho rho_ped then core_part else ped_part) scale)
  end.

(** value(rho) for an array. *)
Definition values64 (fused : bool) (vpow : nat -> f64 -> f64 -> f64) (p : profile64) (rhos : list f64) : res (list f64) :=
  mapM (fun ir => value64 fused (vpow (fst ir)) p (snd ir)) (combine (seq 0 (length rhos)) rhos).
