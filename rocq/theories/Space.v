(** Model of /repo/tokamak_neutron_source/space.py:15-72 (sample_space_2d).

    The polygon test matplotlib.path.Path.contains_points is a parameter [inside]; [mpl_inside] below
    is its crossing-number algorithm in exact arithmetic (matplotlib's src/_path.h,
    point_in_path_impl), used to show that the assumptions made about it are met. *)
From Verif Require Import Base.

(** Python / numpy float modulo: a - b * floor(a / b). *)
Definition py_mod (a b : R) : R := a - b * IZR (Int_part (a / b)).

(** np.arange(start, stop, step): ceil((stop - start) / step) values start + i * step. *)
Definition Rceil (x : R) : Z := (- Int_part (- x))%Z.
Definition arange (start stop step : R) : list R :=
  map (fun i => start + INR i * step) (seq 0 (Z.to_nat (Rceil ((stop - start) / step)))).

(** The cell centres along one axis, space.py:51-61. *)
Definition centers (coords : list R) (o h : R) : res (list R) :=
  let off := 2 * h in
  do lo <- np_min coords;
  do hi <- np_max coords;
  let c_min := lo - off in
  let c_max := hi + off in
  let d := py_mod (o - c_min) h - 0.5 * h in
  Ok (map (fun c => c + 0.5 * h) (arange (c_min + d) c_max h)).

(** np.meshgrid(x, z, indexing="ij") followed by ravel: x varies slowest, space.py:62-63. *)
Definition mesh (xs zs : list R) : list (R * R) := flat_map (fun x => map (fun z => (x, z)) zs) xs.

(** A sampled cell: (x, z, d_volume). *)
Definition sample := (R * R * R)%type.

(** space.py:15-72. A zero cell size makes np.arange raise ValueError. The three returned
    arrays are represented as one list of triples. *)
Definition sample_space_2d (inside : list (R * R) -> R * R -> bool) (lcfs : list (R * R)) (o_point : R * R) (h : R)
  : res (list sample) :=
  if Reqb h 0 then Err EValue else
  do xs <- centers (map fst lcfs) (fst o_point) h;
  do zs <- centers (map snd lcfs) (snd o_point) h;
  let points := filter (inside lcfs) (mesh xs zs) in
  Ok (map (fun p => (fst p, snd p, 2 * PI * fst p * (h * h))) points).

(** matplotlib's crossing test: a ray towards +x; [b] is the parity so far. *)
Definition crossing (p v0 v1 : R * R) : bool :=
  let yflag0 := Rleb (snd p) (snd v0) in
  let yflag1 := Rleb (snd p) (snd v1) in
  if Bool.eqb yflag0 yflag1 then false
  else Bool.eqb (Rleb ((fst v1 - fst p) * (snd v0 - snd v1)) ((snd v1 - snd p) * (fst v0 - fst v1))) yflag1.
Fixpoint crossings (p first v0 : R * R) (rest : list (R * R)) (b : bool) : bool :=
  match rest with
  | [] => xorb b (crossing p v0 first)           (* the path is closed at the end *)
  | v1 :: rest' => crossings p first v1 rest' (xorb b (crossing p v0 v1))
  end.
Definition mpl_inside (poly : list (R * R)) (p : R * R) : bool :=
  match poly with [] => false | v :: rest => crossings p v v rest false end.
