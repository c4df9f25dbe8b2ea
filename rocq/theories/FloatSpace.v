(** Model of /repo/tokamak_neutron_source/space.py:15-72 (sample_space_2d) in IEEE binary64, the arithmetic numpy really uses.
    Space.v models the same function with exact numbers. *)
From Coq Require Import ZArith List Bool.
From Flocq Require Import IEEE754.BinarySingleNaN.
From Verif Require Import Base FloatComp FloatSource.

(** The literal 2.0, 0.5 and np.pi (space.py:50, 55-60, 70). *)
Definition f2 : f64 := f64_of_Z 2.
Definition f_half : f64 := binary_normalize 53 1024 Hprec64 Hmax64 mode_NE 1 (-1) false.
Definition f_pi : f64 := binary_normalize 53 1024 Hprec64 Hmax64 mode_NE 884279719003555 (-48) false.

(** C's fmod, exact by definition: the remainder with the sign of x. *)
Definition fmod64 (x y : f64) : f64 :=
  match x, y with
  | B754_nan, _ | _, B754_nan | B754_infinity _, _ | _, B754_zero _ => B754_nan
  | B754_zero _, _ | _, B754_infinity _ => x
  | B754_finite sx mx ex _, B754_finite _ my ey _ =>
      let e := Z.min ex ey in
      let r := Z.rem (Zpos mx * 2 ^ (ex - e)) (Zpos my * 2 ^ (ey - e)) in
      if Z.eqb r 0 then B754_zero sx
      else binary_normalize 53 1024 Hprec64 Hmax64 mode_NE (if sx then Z.opp r else r) e sx
  end.

(** The operator % on numpy and Python floats (numpy's npy_remainder): fmod moved to the sign of the divisor. *)
Definition remainder64 (x y : f64) : f64 :=
  let m := fmod64 x y in
  if Beqb y f0 || is_nan y || is_nan m then m
  else if Beqb m f0 then B754_zero (Bsign y)
  else if negb (Bool.eqb (Bltb y f0) (Bltb m f0)) then fadd m y
  else m.

(** np.ceil followed by the conversion to the integer type of array sizes: not for NaN, infinities and numbers beyond 2^63. *)
Definition ceil64 (x : f64) : option Z :=
  match x with
  | B754_nan | B754_infinity _ => None
  | B754_zero _ => Some 0%Z
  | B754_finite s m e _ =>
      let v := if s then Zneg m else Zpos m in
      let c := if (0 <=? e)%Z then (v * 2 ^ e)%Z else (- ((- v) / 2 ^ (- e)))%Z in
      if (Z.abs c <=? 2 ^ 63)%Z then Some c else None
  end.

(** x * y + z with one rounding. *)
Definition ffma (x y z : f64) : f64 := Bfma mode_NE x y z.

(** Element i of np.arange. numpy computes elements 0 and 1 as start and start + step and fills the rest from these two as
    start + i * delta with delta = (start + step) - start; compilers may use one fused operation for that, or two. *)
Definition arange_elt (fused : bool) (start step : f64) (i : nat) : f64 :=
  match i with
  | O => start
  | 1%nat => fadd start step
  | _ => let delta := fsub (fadd start step) start in
         if fused then ffma (f64_of_Z (Z.of_nat i)) delta start
         else fadd start (fmul (f64_of_Z (Z.of_nat i)) delta)
  end.
(** np.arange(start, stop, step) (numpy's PyArray_ArangeObj). Memory exhaustion is not modelled. *)
Definition arange64 (fused : bool) (start stop step : f64) : res (list f64) :=
  let d := fsub stop start in
  let l := fdiv d step in
  match (if Beqb l f0 && negb (Beqb d f0) then Some (if Bsign l then 0%Z else 1%Z) else ceil64 l) with
  | None => Err EValue
  | Some n => Ok (map (arange_elt fused start step) (seq 0 (Z.to_nat n)))
  end.

(** np.min and np.max: NaN wins; an empty array raises ValueError. *)
Definition np_pick (lt : f64 -> f64 -> bool) (l : list f64) : res f64 :=
  match l with
  | [] => Err EValue
  | a :: r => Ok (fold_left (fun m x => if is_nan m then m else if is_nan x then x else if lt x m then x else m) r a)
  end.
Definition np_min64 : list f64 -> res f64 := np_pick Bltb.
Definition np_max64 : list f64 -> res f64 := np_pick (fun x m => Bltb m x).

(** The cell centres along one axis, space.py:50-61. *)
Definition centers64 (fused : bool) (coords : list f64) (o h : f64) : res (list f64) :=
  let off := fmul f2 h in
  do lo <- np_min64 coords;
  do hi <- np_max64 coords;
  let c_min := fsub lo off in
  let c_max := fadd hi off in
  let d := fsub (remainder64 (fsub o c_min) h) (fmul f_half h) in
  do l <- arange64 fused (fadd c_min d) c_max h;
  Ok (map (fun c => fadd c (fmul f_half h)) l).

(** np.meshgrid(x, z, indexing=ij) followed by ravel: x varies slowest, space.py:62-63. *)
Definition mesh64 (xs zs : list f64) : list (f64 * f64) := flat_map (fun x => map (fun z => (x, z)) zs) xs.

(** space.py:15-72. [inside] is matplotlib's polygon test, [square] the power h**2 of the platform's C library (which may
    be wrong in the last digit). *)
Definition sample_space_2d64 (fused : bool) (inside : list (f64 * f64) -> f64 * f64 -> bool) (square : f64 -> f64)
    (lcfs : list (f64 * f64)) (o_point : f64 * f64) (h : f64) : res (list (f64 * f64 * f64)) :=
  do xs <- centers64 fused (map fst lcfs) (fst o_point) h;
  do zs <- centers64 fused (map snd lcfs) (snd o_point) h;
  let points := filter (inside lcfs) (mesh64 xs zs) in
  Ok (map (fun p => (fst p, snd p, fmul (fmul (fmul f2 f_pi) (fst p)) (square h))) points).
