(** Independent specification for C84: how well the sampled cells fill the plasma. *)
From Coq Require Import Reals List ZArith.
From Verif Require Import SpecGeometry SpecSpace.
Import ListNotations.
Open Scope R_scope.

(** The edge from a to b passes the height of p upwards (downwards), with p not right of it (left of it). *)
Definition passes_up (p a b : R * R) : Prop := snd a < snd p <= snd b /\ 0 <= turn a b p.
Definition passes_down (p a b : R * R) : Prop := snd b < snd p <= snd a /\ turn a b p < 0.
(** The boundary goes round p [n] times, anticlockwise: passages above minus passages below. *)
Inductive winds (p : R * R) : list (R * R) -> Z -> Prop :=
| winds_point a : winds p [a] 0
| winds_up a b l n : passes_up p a b -> winds p (b :: l) n -> winds p (a :: b :: l) (n + 1)
| winds_down a b l n : passes_down p a b -> winds p (b :: l) n -> winds p (a :: b :: l) (n - 1)
| winds_none a b l n : ~ passes_up p a b -> ~ passes_down p a b -> winds p (b :: l) n -> winds p (a :: b :: l) n.
(** A simple closed curve: it goes round every point at most once, and always in the same sense. The points of [ex] are left out: matplotlib's
    rule counts a corner that points up into the plasma (a notch cut from below) twice. [simple] leaves out none. *)
Definition simple_but (ex l : list (R * R)) : Prop :=
  loop l /\ ((forall p n, ~ In p ex -> winds p l n -> n = 0%Z \/ n = 1%Z) \/ (forall p n, ~ In p ex -> winds p l n -> n = 0%Z \/ n = (-1)%Z)).
Definition simple (l : list (R * R)) : Prop := simple_but [] l.

(** The number of edges that cross the height z. *)
Inductive crossed (z : R) : list (R * R) -> nat -> Prop :=
| crossed_point a : crossed z [a] 0
| crossed_yes a b l n : (snd a < z <= snd b \/ snd b < z <= snd a) -> crossed z (b :: l) n -> crossed z (a :: b :: l) (S n)
| crossed_no a b l n : ~ (snd a < z <= snd b \/ snd b < z <= snd a) -> crossed z (b :: l) n -> crossed z (a :: b :: l) n.
Definition crossed_at_most (c : nat) (l : list (R * R)) : Prop := forall z n, crossed z l n -> (n <= c)%nat.

(** The distance travelled in x along the boundary. *)
Fixpoint travel_x (l : list (R * R)) : R :=
  match l with a :: ((b :: _) as r) => Rabs (fst b - fst a) + travel_x r | _ => 0 end.

(** The sum of the volumes of the cells. *)
Definition total_volume (ss : list Space.sample) : R := fold_right (fun s v => svol s + v) 0 ss.
