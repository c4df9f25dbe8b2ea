(** Model of the polygon helpers of /repo/tokamak_neutron_source/tools.py:214-296 and of the closed surfaces of
    /repo/tokamak_neutron_source/flux.py:42-94 in IEEE binary64, the arithmetic numba and numpy really use (numba contracts no operations without
    its fastmath option). Geometry.v models the same functions with exact numbers. *)
From Coq Require Import ZArith List Bool.
From Flocq Require Import IEEE754.BinarySingleNaN.
From Verif Require Import Base FloatComp FloatSource FloatSpace.

Notation pt64 := (f64 * f64)%type (only parsing).

(** The loop "for n in range(len(x) - 1): a += f(n, n + 1)", tools.py:232-233 and 285-288. *)
Fixpoint edge_loop64 (f : pt64 -> pt64 -> f64) (a : f64) (l : list pt64) : f64 :=
  match l with
  | p :: ((q :: _) as r) => edge_loop64 f (fadd a (f p q)) r
  | _ => a
  end.

(** check_ccw, tools.py:214-234. *)
Definition check_ccw64 (l : list pt64) : bool :=
  Bltb (edge_loop64 (fun p q => fmul (fsub (fst q) (fst p)) (fadd (snd q) (snd p))) f0 l) f0.

(** np.append(x[-1], x[:-1]), tools.py:257-258 *)
Definition roll64 (l : list f64) : list f64 := match l with [] => [] | _ => last l f0 :: removelast l end.

Section Dot.
  (** np.dot of two vectors: the platform's BLAS. *)
  Variable dot64 : list f64 -> list f64 -> f64.

  (** get_area_2d, tools.py:237-259. *)
  Definition get_area_2d64 (l : list pt64) : res f64 :=
    match l with
    | [] => Err EIndex
    | _ => let x := map fst l in let y := map snd l in
           Ok (fmul f_half (Babs (fsub (dot64 x (roll64 y)) (dot64 y (roll64 x)))))
    end.

  (** tools.py:285-286: a = x[i] * z[i + 1] - x[i + 1] * z[i] *)
  Definition cross64 (p q : pt64) : f64 := fsub (fmul (fst p) (snd q)) (fmul (fst q) (snd p)).

  (** get_centroid_2d after the orientation, tools.py:281-296. *)
  Definition centroid_from64 (l : list pt64) : res pt64 :=
    do area <- get_area_2d64 l;
    let cx := edge_loop64 (fun p q => fmul (fadd (fst p) (fst q)) (cross64 p q)) f0 l in
    let cz := edge_loop64 (fun p q => fmul (fadd (snd p) (snd q)) (cross64 p q)) f0 l in
    Ok (if Beqb area f0 then (cx, cz)
        else (fdiv cx (fmul (f64_of_Z 6) area), fdiv cz (fmul (f64_of_Z 6) area))).

  (** get_centroid_2d, tools.py:262-296. *)
  Definition get_centroid_2d64 (l : list pt64) : res pt64 := centroid_from64 (if check_ccw64 l then l else rev l).

  (** np.isclose(a, b, rtol=0.0, atol=tol) and is_closed, flux.py:42-48. *)
  Definition isclose64 (tol a b : f64) : bool :=
    (Bleb (Babs (fsub a b)) (fadd tol (fmul f0 (Babs b))) && is_finite b) || Beqb a b.
  Definition f_tol : f64 := binary_normalize 53 1024 Hprec64 Hmax64 mode_NE 4951760157141521 (-92) false.
  Definition is_closed64 (l : list pt64) : res bool :=
    match l with
    | [] => Err EIndex
    | p :: r => let q := last r p in Ok (isclose64 f_tol (fst p) (fst q) && isclose64 f_tol (snd p) (snd q))
    end.

  (** ClosedFluxSurface, flux.py:54-58: the points kept, or the error. *)
  Definition closed_flux_surface64 (l : list pt64) : res (list pt64) :=
    do c <- is_closed64 l;
    if c then Ok l else Err EFluxSurface.

  (** center_of_mass, area and volume, flux.py:60-94. *)
  Definition center_of_mass64 (s : list pt64) : res pt64 := get_centroid_2d64 s.
  Definition area64 (s : list pt64) : res f64 := get_area_2d64 s.
  Definition volume64 (s : list pt64) : res f64 :=
    do a <- area64 s;
    do c <- center_of_mass64 s;
    Ok (fmul (fmul (fmul f2 f_pi) a) (fst c)).
End Dot.
