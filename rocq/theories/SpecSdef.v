(** Independent specification for C68: which ring-shaped regions MCNP samples from the cards of a source file, and how often.

    Follows the MCNP manual's description of the SI (H option: histogram bin boundaries), SP (D option: bin probabilities, the
    first one zero, normalised by MCNP) and DS (S option: one distribution number for each bin of the distribution it depends on) cards. *)
From Coq Require Import Ascii String List Bool Arith ZArith Reals.
From Verif Require Import Base SpecSource TextWrap SpecText SpecFormat SpecMcnp.
Import ListNotations.
Open Scope R_scope.

Fixpoint strip (k w : text) : option text :=
  match k, w with
  | [], _ => Some w
  | a :: k', b :: w' => if Ascii.eqb a b then strip k' w' else None
  | _ :: _, [] => None
  end.
(** The word is the card name k followed by the number n, as in SI5. *)
Definition named (k : string) (n : R) (w : text) : bool :=
  match strip (txt k) w with
  | Some v => match read_number v with Some x => if Req_EM_T x n then true else false | None => false end
  | None => false
  end.
(** The entries of the first card k n with option letter o. *)
Fixpoint entries (k : string) (n : R) (o : string) (deck : list (list text)) : option (list text) :=
  match deck with
  | [] => None
  | ws :: deck' =>
      match ws with
      | w :: p :: e => if named k n w then (if list_eq_dec ascii_dec p (txt o) then Some e else None) else entries k n o deck'
      | _ => entries k n o deck'
      end
  end.
(** The numbers on a card. *)
Fixpoint read_all (ws : list text) : option (list R) :=
  match ws with
  | [] => Some []
  | w :: ws' => match read_number w, read_all ws' with Some x, Some xs => Some (x :: xs) | _, _ => None end
  end.
Definition entry_numbers (k : string) (n : R) (o : string) (deck : list (list text)) : option (list R) :=
  match entries k n o deck with Some ws => read_all ws | None => None end.

(** Distribution n as a histogram: bins and their probabilities. *)
Definition histogram (deck : list (list text)) (n : R) : option (list ((R * R) * R)) :=
  match entry_numbers "SI" n "H" deck, entry_numbers "SP" n "D" deck with
  | Some b, Some (p0 :: p) =>
      if Req_EM_T p0 0 then
        if (length b =? S (length p))%nat then Some (combine (bins b) (map (fun x => x / total p) p)) else None
      else None
  | _, _ => None
  end.
Fixpoint all {A} (l : list (option A)) : option (list A) :=
  match l with
  | [] => Some []
  | Some a :: l' => match all l' with Some r => Some (a :: r) | None => None end
  | None :: _ => None
  end.

(** A sampled region: bin of the radius, bin of the height, probability. *)
Definition region := ((R * R) * (R * R) * R)%type.
Definition with_radius (rp : (R * R) * R) (column : list ((R * R) * R)) : list region :=
  map (fun zq => (fst rp, fst zq, snd rp * snd zq)) column.
(** sdef rad = d3 ext = frad d4: the radius follows distribution 3; the height follows the distribution that DS4 names for the sampled radial bin. *)
Definition emission (deck : list (list text)) : option (list region) :=
  match histogram deck 3, entry_numbers "DS" 4 "S" deck with
  | Some radial, Some ids =>
      match all (map (histogram deck) ids) with
      | Some cols => if (length cols =? length radial)%nat then Some (concat (map (fun rc => with_radius (fst rc) (snd rc)) (combine radial cols))) else None
      | None => None
      end
  | _, _ => None
  end.

(** Within a relative error of e. *)
Definition close (e v x : R) : Prop := Rabs (v - x) <= e * Rabs x.

(** The regions of columns of cells of side h (m), of total strength w: in cm; the probability of a cell is its share of the strength. *)
Definition regions (h w : R) (cs : list col) : list region :=
  concat (map (fun bc : (R * R) * col => map (fun bz : (R * R) * R => (fst bc, fst bz, snd bz / w)) (combine (bins (boundaries h (heights (snd bc)))) (strengths (snd bc))))
              (combine (bins (boundaries h (map fst cs))) cs)).
(** Bounds within five decimals, probability within a relative error of 2.1e-5. *)
Definition close_bin (a b : R * R) : Prop := close (5 / 10 ^ 6) (fst a) (fst b) /\ close (5 / 10 ^ 6) (snd a) (snd b).
Definition close_region (a b : region) : Prop :=
  close_bin (fst (fst a)) (fst (fst b)) /\ close_bin (snd (fst a)) (snd (fst b)) /\ close (21 / 10 ^ 6) (snd a) (snd b).
