(** Property theorems C88 (which boundaries are filled by the sampled cells). *)
From Coq Require Import Reals Lra Lia ZArith List Bool.
From Verif Require Import Base Space SpaceProofs SpecSpace P_Space Geometry GeometryProofs SpecGeometry P_Geometry SpecConvex ConvexProofs SpecGrid GridProofs GridProofs2 GridConvex P_Grid
  SpecIntegral SpecStar StarProofs.
Import ListNotations.
Open Scope R_scope.

(** A boundary that is met once in every direction from some point inside is a simple closed curve but for, at most, its corners. *)
Theorem C88_star : forall l, (seen_once l -> simple_but l l /\ goes_round 1 l) /\ (seen_once (rev l) -> simple_but l l /\ goes_round (-1) l).
Proof.
  intro l. assert (K : forall m, seen_once m -> loop m) by (intros m (c & r & t & ts & -> & Ht & Hl & Hr); exact (star_loop c r t ts Hl Hr)). split; intro H.
  - assert (Q : forall p n, ~ In p l -> winds p l n -> n = 0%Z \/ n = 1%Z).
    { intros p n N W. apply winds_sum in W. destruct (seen_once_sum l p H N) as [[E|E] _]; [left|right]; apply eq_IZR; lra. }
    specialize (K l H). split; [split; [exact K|now left]|]. split; [exact K|]. split; [now left|now exists l].
  - assert (Q : forall p n, ~ In p l -> winds p l n -> n = 0%Z \/ n = (-1)%Z).
    { intros p n N W. apply winds_sum in W. assert (N' : ~ In p (rev l)) by (intro I; apply N; now apply in_rev). destruct (seen_once_sum (rev l) p H N') as [_ E]. rewrite rev_involutive in E. destruct E as [E|E]; [left|right]; apply eq_IZR; lra. }
    specialize (K _ H). apply loop_rev in K. rewrite rev_involutive in K. split; [split; [exact K|now right]|]. split; [exact K|]. split; [now right|now exists l].
Qed.
Print Assumptions C88_star.

(** So is a boundary with one side going up and one, inboard of it, going down; it crosses every height at most twice. *)
Theorem C88_two_sided : forall l, (two_sided l -> simple l /\ crossed_at_most 2 l /\ goes_round 1 l) /\
  (two_sided (rev l) -> simple_but l l /\ crossed_at_most 2 l /\ goes_round (-1) l).
Proof.
  intro l. split; intro H.
  - assert (Q : forall p n, winds p l n -> n = 0%Z \/ n = 1%Z).
    { intros p n W. apply winds_sum in W. destruct (two_sided_sum l p H) as [E|E]; [left|right]; apply eq_IZR; lra. }
    pose proof H as (L & Hu & _). split; [split; [exact L|left; intros; now apply (Q p)]|]. split; [now apply ups_crossed|]. split; [exact L|]. split; [now left|]. exists []. intros p n _. apply Q.
  - assert (Q : forall p n, ~ In p l -> winds p l n -> n = 0%Z \/ n = (-1)%Z).
    { intros p n N W. apply winds_sum in W. destruct (two_sided_rev_sum l p H N) as [E|E]; [left|right]; apply eq_IZR; lra. }
    pose proof H as (L' & Hu & _). pose proof L' as L. apply loop_rev in L. rewrite rev_involutive in L. split; [split; [exact L|now right]|]. split; [apply crossed_rev; [exact (loop_nonempty l L)|now apply ups_crossed]|]. split; [exact L|]. split; [now right|now exists l].
Qed.
Print Assumptions C88_two_sided.

(** The cells of such plasmas fill them as they shrink. *)
Theorem C88_filled : forall l A V eps, seen_once l \/ seen_once (rev l) \/ two_sided l \/ two_sided (rev l) -> (forall v, In v l -> 0 <= fst v) ->
  area (SClosed l) = Ok A -> volume (SClosed l) = Ok V -> 0 < eps ->
  exists h0, 0 < h0 /\ forall o h ss, 0 < h <= h0 -> sample_space_2d mpl_inside l o h = Ok ss ->
    Rabs (INR (length ss) * (h * h) - A) < eps /\ Rabs (total_volume ss - V) < eps.
Proof.
  intros l A V eps H Hx EA EV He. destruct H as [H|[H|[H|H]]]; [apply (C84_converges l l)|apply (C84_converges l l)|apply (C84_converges [] l)|apply (C84_converges l l)]; try assumption; [exact (proj1 (proj1 (C88_star l) H))|exact (proj1 (proj2 (C88_star l) H))|exact (proj1 (proj1 (C88_two_sided l) H))|exact (proj1 (proj2 (C88_two_sided l) H))].
Qed.
Print Assumptions C88_filled.

(** The error of the area and of the volume of the cells of a plasma with an up and a down side. *)
Theorem C88_two_sided_error : forall l o h ss A V X Zlo Zhi, 0 < h -> two_sided l -> (forall v, In v l -> 0 <= fst v <= X /\ Zlo <= snd v <= Zhi) ->
  sample_space_2d mpl_inside l o h = Ok ss -> area (SClosed l) = Ok A -> volume (SClosed l) = Ok V ->
  Rabs (INR (length ss) * (h * h) - A) <= h * (travel_x l / 2 + (Zhi - Zlo) + h) /\
  Rabs (total_volume ss - V) <= PI * h * (X * travel_x l + (2 * X + h / 2) * (Zhi - Zlo + h)).
Proof.
  intros l o h ss A V X Zlo Zhi Hh H Hb E EA EV. destruct (proj1 (C88_two_sided l) H) as (S & C & _). split.
  - eapply Rle_trans; [apply (C84_area [] l o h ss A X Zlo Zhi 2 Hh S C Hb E EA)|]. right. cbn [length]. change (INR 0) with 0. change (INR 2) with (1 + 1). field.
  - eapply Rle_trans; [apply (C84_volume [] l o h ss V X Zlo Zhi 2 Hh S C Hb E EV)|]. right. cbn [length]. change (INR 0) with 0. change (INR 2) with (1 + 1). field.
Qed.
Print Assumptions C88_two_sided_error.

(** A star with four points, and a crescent. *)
Definition star4 : list (R * R) := map (at_angle (5, 0) (fun t => 2 + cos (4 * t))) (map (fun k => INR k * (PI / 4)) (seq 0 9)).
Example C88_star_example : seen_once star4.
Proof.
  pose proof PI_RGT_0 as P. exists (5, 0), (fun t => 2 + cos (4 * t)), (INR 0 * (PI / 4)), (map (fun k => INR k * (PI / 4)) (seq 1 8)). split; [reflexivity|]. split; [|split].
  - cbn [seq map]. repeat (apply turning_more; [rewrite ?S_INR; cbn [INR]; lra|]). apply turning_one.
  - cbn [seq map last]. rewrite !S_INR. cbn [INR]. field.
  - intro u. pose proof (COS_bound (4 * u)). split; [lra|]. f_equal. replace (4 * (u + 2 * PI)) with (4 * u + 2 * INR 4 * PI) by (rewrite !S_INR; cbn [INR]; ring). apply cos_period.
Qed.
Definition crescent : list (R * R) := [(4, -2); (6, 0); (4, 2); (5, 0); (4, -2)].
Example C88_crescent_example : two_sided crescent /\ ~ convex_polygon crescent.
Proof.
  assert (Ed : forall a b, edge crescent a b -> (a = (4, -2) /\ b = (6, 0)) \/ (a = (6, 0) /\ b = (4, 2)) \/ (a = (4, 2) /\ b = (5, 0)) \/ (a = (5, 0) /\ b = (4, -2))).
  { intros a b (m1 & m2 & E). unfold crescent in E. destruct m1 as [|? [|? [|? [|? m1]]]]; cbn [app] in E; injection E; intros; subst; [left|right; left|right; right; left|right; right; right|destruct m1 as [|? m1]; [discriminate|destruct m1; discriminate]]; now split. }
  split; [split; [now exists (4, -2), [(6, 0); (4, 2); (5, 0); (4, -2)]|split]|].
  - intros z n U. unfold crescent in U. repeat match goal with H : ups z _ _ |- _ => inversion H; subst; clear H end; cbn [snd] in *; try lia; exfalso; lra.
  - intros a b c d z x x' E1 E2 U D (s & Hs & S1 & S2) (t & Ht' & T1 & T2).
    destruct (Ed a b E1) as [[-> ->]|[[-> ->]|[[-> ->]|[-> ->]]]]; destruct (Ed c d E2) as [[-> ->]|[[-> ->]|[[-> ->]|[-> ->]]]]; cbn [fst snd] in *; try lra.
    destruct (Req_dec z 2) as [Z|Z]; [right; split; [lra|]|left; lra]. right. right. left. f_equal; lra.
  - intros (_ & _ & H). specialize (H (4, 2) (5, 0) (4, -2)). assert (0 < turn (4, 2) (5, 0) (4, -2)); [|unfold turn in *; cbn [fst snd] in *; lra].
    apply H; [now exists [(4, -2); (6, 0)], [(4, -2)]|right; right; right; right; now left|intro Q; injection Q; lra|intro Q; injection Q; lra].
Qed.
