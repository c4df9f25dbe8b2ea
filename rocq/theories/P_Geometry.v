(** Property theorems C33-C36 (closed surfaces: validation, area, centroid, volume). *)
From Verif Require Import Base Geometry SpecGeometry GeometryProofs.
Open Scope R_scope.

(** C33 *)
Theorem C33_closed_surfaces_only : forall p r, let q := last r p in
  (Rabs (fst p - fst q) <= 1e-12 /\ Rabs (snd p - snd q) <= 1e-12 ->
     exists s, closed_flux_surface (p :: r) = Ok s /\ points s = p :: r) /\
  (Rabs (fst p - fst q) > 1e-12 \/ Rabs (snd p - snd q) > 1e-12 -> closed_flux_surface (p :: r) = Err EFluxSurface) /\
  closed_flux_surface [] = Err EIndex.
Proof.
  intros p r q. unfold closed_flux_surface, is_closed, isclose. cbn [bind]. fold q.
  destruct (Rleb_spec (Rabs (fst p - fst q)) 1e-12), (Rleb_spec (Rabs (snd p - snd q)) 1e-12); cbn [andb];
  (split; [intros [A B]|split; [intros [A|A]|reflexivity]]); try lra; eauto.
Qed.
Print Assumptions C33_closed_surfaces_only.

(** C34: the area is |boundary integral of x dz|. *)
Theorem C34_area_is_boundary_integral : forall l, loop l ->
  exists v, path_integral (fun x _ => x) l v /\ area (SClosed l) = Ok (Rabs v).
Proof.
  intros l H. pose proof H as (p & r & E & _). exists (edge_sum (fun p q => (fst p + fst q) * (snd q - snd p) / 2) l).
  split; [rewrite E; apply path_integral_ex, edge_integral_x|].
  unfold area. rewrite (area_loop l H). f_equal.
  transitivity (Rabs (/ 2 * edge_sum (fun p q => (fst p + fst q) * (snd q - snd p)) l)).
  - rewrite (x_dz l H), Rabs_mult, (Rabs_right (/2)) by lra. lra.
  - rewrite <- edge_sum_scale. f_equal. apply edge_sum_ext. intros. field.
Qed.
Print Assumptions C34_area_is_boundary_integral.

(** Any affine map multiplies the area by |determinant|: in particular translations and rotations keep it
    and a magnification k multiplies it by k^2. *)
Theorem C34_affine : forall l A a b c d e f, loop l -> area (SClosed l) = Ok A ->
  area (SClosed (map (affine a b c d e f) l)) = Ok (Rabs (a * d - b * c) * A).
Proof.
  intros l A a b c d e f H E. unfold area in *. rewrite (area_loop l H) in E. injection E as <-.
  rewrite (area_loop _ (loop_map _ l H)), (crs_affine a b c d e f l H), Rabs_mult. f_equal. lra.
Qed.
Print Assumptions C34_affine.

Lemma area_hd p r : get_area_2d (p :: r) = Ok (Rabs (edge_sum crs ((p :: r) ++ [p])) / 2).
Proof.
  rewrite area_cyclic, edge_sum_cons. cbn [app]. rewrite edge_sum_snoc. do 3 f_equal. ring.
Qed.
Lemma area_rotate1 p r : get_area_2d (p :: r) = get_area_2d (r ++ [p]).
Proof.
  destruct r as [|q r]; [reflexivity|]. cbn [app]. rewrite !area_hd. cbn [app]. do 3 f_equal.
  rewrite (edge_sum_snoc crs q (r ++ [p]) q), last_last, edge_sum_cons. ring.
Qed.
Lemma area_rotate a b : get_area_2d (a ++ b) = get_area_2d (b ++ a).
Proof.
  revert b. induction a as [|p a IH]; intro b; [now rewrite app_nil_r|].
  cbn [app]. rewrite area_rotate1, <- app_assoc, IH, <- app_assoc. reflexivity.
Qed.

(** For every vertex list, closed or not: non-negative; independent of orientation and starting vertex; the
    closing point may be repeated or left out. *)
Theorem C34_orientation_and_start : forall p r a b,
  (exists A, area (SClosed (p :: r)) = Ok A /\ 0 <= A) /\
  area (SClosed (rev (p :: r))) = area (SClosed (p :: r)) /\
  area (SClosed (a ++ b)) = area (SClosed (b ++ a)) /\
  area (SClosed (p :: r ++ [p])) = area (SClosed (p :: r)).
Proof.
  intros p r a b. unfold area. split; [|split; [|split]].
  - rewrite area_cyclic. eexists. split; [reflexivity|].
    pose proof (Rabs_pos (edge_sum crs (last r p :: p :: r))). lra.
  - cbn [rev]. rewrite <- area_rotate1, !area_hd.
    replace ((p :: rev r) ++ [p]) with (rev ((p :: r) ++ [p])) by (rewrite rev_app_distr; reflexivity).
    now rewrite crs_rev, Rabs_Ropp.
  - apply area_rotate.
  - rewrite area_cyclic, last_last, edge_sum_cons, area_hd. do 3 f_equal. cbn [app]. unfold crs at 1. ring.
Qed.
Print Assumptions C34_orientation_and_start.

(** C35 *)
Theorem C35_orientation : forall l A, loop l -> area (SClosed l) = Ok A -> A <> 0 ->
  center_of_mass (SClosed (rev l)) = center_of_mass (SClosed l).
Proof.
  intros l A H E N. unfold area in E. rewrite (area_loop l H) in E. injection E as <-.
  assert (Z : edge_sum crs l <> 0) by (intro Z; apply N; rewrite Z, Rabs_R0; lra).
  unfold center_of_mass. rewrite (centroid_loop l H Z), (centroid_loop _ (loop_rev l H)) by (rewrite crs_rev; lra).
  rewrite crs_rev, !mom_rev. f_equal. f_equal; field; exact Z.
Qed.
Print Assumptions C35_orientation.

Theorem C35_moves_with_polygon : forall l A c a b c' d e f, loop l -> area (SClosed l) = Ok A -> A <> 0 -> a * d - b * c' <> 0 ->
  center_of_mass (SClosed l) = Ok c ->
  center_of_mass (SClosed (map (affine a b c' d e f) l)) = Ok (affine a b c' d e f c).
Proof.
  intros l A c a b c' d e f H E N D Ec. unfold area in E. rewrite (area_loop l H) in E. injection E as <-.
  assert (Z : edge_sum crs l <> 0) by (intro Z; apply N; rewrite Z, Rabs_R0; lra).
  unfold center_of_mass in *. rewrite (centroid_loop l H Z) in Ec. injection Ec as <-.
  rewrite (centroid_loop _ (loop_map _ l H)); rewrite (crs_affine a b c' d e f l H).
  - rewrite (mom_affine_x a b c' d e f l H), (mom_affine_z a b c' d e f l H). unfold affine; cbn [fst snd].
    f_equal. f_equal; field; auto.
  - apply Rmult_integral_contrapositive_currified; assumption.
Qed.
Print Assumptions C35_moves_with_polygon.

(** The centroid lies in every half-plane that holds all vertices, hence in the bounding box (and the convex hull). *)
Theorem C35_in_convex_hull : forall l o A c a b m, loop l -> star_shaped l o -> area (SClosed l) = Ok A -> A <> 0 ->
  center_of_mass (SClosed l) = Ok c ->
  (forall p, In p l -> m <= a * fst p + b * snd p) -> m <= a * fst c + b * snd c.
Proof.
  intros l o A c a b m H S E N Ec Hm. unfold area in E. rewrite (area_loop l H) in E. injection E as <-.
  assert (Z : edge_sum crs l <> 0) by (intro Z; apply N; rewrite Z, Rabs_R0; lra).
  exact (centroid_halfplane l o c a b m H S Z Ec Hm).
Qed.
Print Assumptions C35_in_convex_hull.

Theorem C35_in_bounding_box : forall l o A c x0 x1 z0 z1, loop l -> star_shaped l o -> area (SClosed l) = Ok A -> A <> 0 ->
  center_of_mass (SClosed l) = Ok c ->
  (forall p, In p l -> x0 <= fst p <= x1 /\ z0 <= snd p <= z1) -> x0 <= fst c <= x1 /\ z0 <= snd c <= z1.
Proof.
  intros l o A c x0 x1 z0 z1 H S E N Ec Hb.
  pose proof (C35_in_convex_hull l o A c 1 0 x0 H S E N Ec) as A1.
  pose proof (C35_in_convex_hull l o A c (-1) 0 (- x1) H S E N Ec) as A2.
  pose proof (C35_in_convex_hull l o A c 0 1 z0 H S E N Ec) as A3.
  pose proof (C35_in_convex_hull l o A c 0 (-1) (- z1) H S E N Ec) as A4.
  assert (B : forall p, In p l -> x0 <= fst p /\ fst p <= x1 /\ z0 <= snd p /\ snd p <= z1) by (intros p Hp; specialize (Hb p Hp); lra).
  assert (x0 <= 1 * fst c + 0 * snd c) by (apply A1; intros p Hp; specialize (B p Hp); lra).
  assert (- x1 <= -1 * fst c + 0 * snd c) by (apply A2; intros p Hp; specialize (B p Hp); lra).
  assert (z0 <= 0 * fst c + 1 * snd c) by (apply A3; intros p Hp; specialize (B p Hp); lra).
  assert (- z1 <= 0 * fst c + -1 * snd c) by (apply A4; intros p Hp; specialize (B p Hp); lra).
  lra.
Qed.
Print Assumptions C35_in_bounding_box.

(** A surface shrunk to one point has no meaningful centroid: the code returns the origin. *)
Theorem C35_degenerate_surface : forall p n, center_of_mass (SClosed (repeat p (S n))) = Ok (0, 0).
Proof.
  intros p n. unfold center_of_mass, get_centroid_2d.
  assert (Z : forall f k, f p p = 0 -> edge_sum f (repeat p k) = 0).
  { intros f k Hf. induction k as [|[|k] IH]; [reflexivity..|]. cbn [repeat] in *. rewrite edge_sum_cons, IH, Hf. ring. }
  assert (Rv : rev (repeat p (S n)) = repeat p (S n)).
  { clear Z. induction (S n) as [|k IH]; [reflexivity|]. cbn [repeat rev]. rewrite IH. symmetry. apply repeat_cons. }
  assert (C : check_ccw (repeat p (S n)) = false).
  { unfold check_ccw. rewrite Z by ring. destruct (Rltb_spec 0 0); [lra|reflexivity]. }
  rewrite C, Rv. cbv zeta.
  assert (Ar : get_area_2d (repeat p (S n)) = Ok 0).
  { cbn [repeat]. rewrite area_hd. change ((p :: repeat p n) ++ [p]) with (p :: (repeat p n ++ [p])).
    rewrite <- repeat_cons. change (p :: p :: repeat p n) with (repeat p (S (S n))). rewrite (Z crs) by (unfold crs; ring). f_equal. rewrite Rabs_R0. lra. }
  rewrite Ar. cbn [bind]. rewrite Reqb_refl, !Z by ring. reflexivity.
Qed.
Print Assumptions C35_degenerate_surface.

(** C36: the volume is pi times the boundary integral of x^2 dz, counted positive for the orientation in which the
    boundary integral of x dz is positive. *)
Theorem C36_volume_of_revolution : forall l, loop l ->
  exists s v, path_integral (fun x _ => x) l s /\ path_integral (fun x _ => x * x) l v /\
    volume (SClosed l) = Ok (PI * (if Rltb 0 s then v else if Rltb s 0 then - v else 0)).
Proof.
  intros l H. pose proof H as (p & r & E & _).
  exists (edge_sum (fun p q => (fst p + fst q) * (snd q - snd p) / 2) l),
    (edge_sum (fun p q => (fst p * fst p + fst p * fst q + fst q * fst q) * (snd q - snd p) / 3) l).
  split; [rewrite E; apply path_integral_ex, edge_integral_x|].
  split; [rewrite E; apply path_integral_ex, edge_integral_x2|].
  rewrite (volume_loop l H). f_equal.
  assert (Es : edge_sum (fun p q => (fst p + fst q) * (snd q - snd p) / 2) l = / 2 * edge_sum crs l).
  { rewrite <- (x_dz l H), <- edge_sum_scale. apply edge_sum_ext. intros; field. }
  assert (Ev : edge_sum (fun p q => (fst p * fst p + fst p * fst q + fst q * fst q) * (snd q - snd p) / 3) l = / 3 * edge_sum (mom fst) l).
  { rewrite <- (x2_dz l H), <- edge_sum_scale. apply edge_sum_ext. intros; field. }
  rewrite Es, Ev.
  destruct (Rltb_spec 0 (edge_sum crs l)), (Rltb_spec 0 (/ 2 * edge_sum crs l)); try lra.
  destruct (Rltb_spec (edge_sum crs l) 0), (Rltb_spec (/ 2 * edge_sum crs l) 0); lra.
Qed.
Print Assumptions C36_volume_of_revolution.

(** Star-shaped surfaces right of the machine axis: the volume is exactly pi |integral of x^2 dz|, never negative. *)
Theorem C36_volume_star_shaped : forall l o, loop l -> star_shaped l o -> (forall p, In p l -> 0 <= fst p) ->
  exists v, path_integral (fun x _ => x * x) l v /\ volume (SClosed l) = Ok (PI * Rabs v).
Proof.
  intros l o H S Hx. pose proof H as (p & r & E & _).
  exists (edge_sum (fun p q => (fst p * fst p + fst p * fst q + fst q * fst q) * (snd q - snd p) / 3) l).
  split; [rewrite E; apply path_integral_ex, edge_integral_x2|].
  rewrite (volume_loop l H). f_equal.
  assert (Ev : edge_sum (fun p q => (fst p * fst p + fst p * fst q + fst q * fst q) * (snd q - snd p) / 3) l = / 3 * edge_sum (mom fst) l).
  { rewrite <- (x2_dz l H), <- edge_sum_scale. apply edge_sum_ext. intros; field. }
  rewrite Ev, Rabs_mult, (Rabs_right (/ 3)) by lra.
  destruct (Req_dec (edge_sum crs l) 0) as [Z|N].
  - assert (M : edge_sum (mom fst) l = 0).
    { rewrite (mom_turn l o fst 1 0) by (auto; intros; ring).
      assert (T : forall p q, edge l p q -> turn o p q = 0).
      { rewrite <- (turn_sum l o H) in Z. destruct S as [S|S]; [now apply edge_sum_nonneg_zero|].
        intros a b Eb. assert (Q : edge_sum (fun p q => -1 * turn o p q) l = 0) by (rewrite edge_sum_scale, Z; ring).
        assert (-1 * turn o a b = 0); [|lra]. apply (edge_sum_nonneg_zero (fun p q => -1 * turn o p q) l) in Eb; [exact Eb| |exact Q].
        intros p' q' E'. specialize (S p' q' E'). cbv beta. lra. }
      rewrite (edge_sum_ext_edges _ (fun _ _ => 0) l); [|intros a b Eb; rewrite (T a b Eb); ring].
      clear. induction l as [|p [|q l] IH]; [reflexivity..|]. rewrite edge_sum_cons, IH. ring. }
    rewrite M, Z, Rabs_R0. destruct (Rltb_spec 0 0); lra.
  - pose proof (centroid_halfplane l o _ 1 0 0 H S N (centroid_loop l H N)) as C. cbn [fst snd] in C.
    assert (P : 0 <= 1 * (edge_sum (mom fst) l / (3 * edge_sum crs l)) + 0 * (edge_sum (mom snd) l / (3 * edge_sum crs l)))
      by (apply C; intros q Hq; specialize (Hx q Hq); lra).
    assert (Q : 0 <= edge_sum (mom fst) l / (3 * edge_sum crs l)) by lra.
    set (M := edge_sum (mom fst) l) in *. set (K := edge_sum crs l) in *.
    assert (EM : M = M / (3 * K) * (3 * K)) by (field; exact N).
    destruct (Rltb_spec 0 K).
    + rewrite Rabs_right; [lra|]. rewrite EM. apply Rle_ge, Rmult_le_pos; lra.
    + destruct (Rltb_spec K 0); [|lra]. rewrite Rabs_left1; [lra|]. rewrite EM. nra.
Qed.
Print Assumptions C36_volume_star_shaped.

Theorem C36_shifts_and_orientation : forall l A V a b k, loop l -> area (SClosed l) = Ok A -> volume (SClosed l) = Ok V ->
  volume (SClosed (rev l)) = Ok V /\
  volume (SClosed (map (affine 1 0 0 1 a b) l)) = Ok (V + 2 * PI * a * A) /\
  (0 < k -> volume (SClosed (map (affine k 0 0 k 0 0) l)) = Ok (k * k * k * V)).
Proof.
  intros l A V a b k H EA EV. unfold area in EA. rewrite (area_loop l H) in EA. injection EA as <-.
  rewrite (volume_loop l H) in EV. injection EV as <-.
  rewrite (volume_loop _ (loop_rev l H)), (volume_loop _ (loop_map _ l H)), (volume_loop _ (loop_map _ l H)).
  rewrite crs_rev, mom_rev, !(crs_affine _ _ _ _ _ _ l H), !(mom_affine_x _ _ _ _ _ _ l H).
  set (M := edge_sum (mom fst) l). set (N := edge_sum (mom snd) l). set (K := edge_sum crs l).
  split; [|split].
  - f_equal. destruct (Rltb_spec 0 (- K)), (Rltb_spec (- K) 0), (Rltb_spec 0 K), (Rltb_spec K 0); lra.
  - f_equal. replace ((1 * 1 - 0 * 0) * K) with K by ring.
    destruct (Rltb_spec 0 K); [rewrite Rabs_right by lra; field|].
    destruct (Rltb_spec K 0); [rewrite Rabs_left by lra; field|].
    replace K with 0 by lra. rewrite Rabs_R0. field.
  - intro Hk. f_equal. assert (0 < k * k) by nra. replace ((k * k - 0 * 0) * K) with (k * k * K) by ring.
    destruct (Rltb_spec 0 K); [destruct (Rltb_spec 0 (k * k * K)); [field|nra]|].
    destruct (Rltb_spec 0 (k * k * K)); [nra|].
    destruct (Rltb_spec K 0), (Rltb_spec (k * k * K) 0); try nra; try field.
Qed.
Print Assumptions C36_shifts_and_orientation.

Theorem C36_axis_ring : forall p, area (SRing p) = Ok 0 /\ volume (SRing p) = Ok 0 /\ points (SRing p) = [p] /\ center_of_mass (SRing p) = Ok p.
Proof. intro p. repeat split; reflexivity. Qed.
Print Assumptions C36_axis_ring.

(** A rectangle: star-shaped about its centre, with the expected area, centroid and volume. *)
Definition rect : list (R * R) := [(1, 0); (3, 0); (3, 1); (1, 1); (1, 0)].
Example C33_C36_example : loop rect /\ star_shaped rect (2, 1/2) /\ (forall p, In p rect -> 0 <= fst p) /\
  closed_flux_surface rect = Ok (SClosed rect) /\
  area (SClosed rect) = Ok 2 /\ center_of_mass (SClosed rect) = Ok (2, 1/2) /\ volume (SClosed rect) = Ok (8 * PI).
Proof.
  assert (L : loop rect) by (exists (1, 0), [(3, 0); (3, 1); (1, 1); (1, 0)]; split; reflexivity).
  assert (K : edge_sum crs rect = 4) by (unfold rect; cbn [edge_sum]; unfold crs; cbn [fst snd]; lra).
  assert (Mx : edge_sum (mom fst) rect = 24) by (unfold rect; cbn [edge_sum]; unfold mom, crs; cbn [fst snd]; lra).
  assert (Mz : edge_sum (mom snd) rect = 6) by (unfold rect; cbn [edge_sum]; unfold mom, crs; cbn [fst snd]; lra).
  assert (A : area (SClosed rect) = Ok 2) by (unfold area; rewrite (area_loop rect L), K, Rabs_right by lra; f_equal; lra).
  assert (C : center_of_mass (SClosed rect) = Ok (2, 1/2)).
  { unfold center_of_mass. rewrite (centroid_loop rect L) by lra. rewrite K, Mx, Mz. f_equal. f_equal; field. }
  split; [exact L|]. split.
  - left. intros p q (l1 & l2 & E). unfold rect in E.
    destruct l1 as [|? [|? [|? [|? [|? l1]]]]]; cbn [app] in E; try discriminate; try (destruct l1; discriminate);
    injection E; intros; subst; unfold turn; cbn [fst snd]; lra.
  - split; [intros p [<-|[<-|[<-|[<-|[<-|[]]]]]]; cbn [fst]; lra|]. split.
    + unfold closed_flux_surface, is_closed, rect. cbn [last bind fst snd]. unfold isclose. rewrite !Rminus_diag_eq by reflexivity.
      rewrite Rabs_R0. destruct (Rleb_spec 0 1e-12); [reflexivity|lra].
    + split; [exact A|]. split; [exact C|]. unfold volume. rewrite A. cbn [bind]. rewrite C. cbn [bind fst]. f_equal. ring.
Qed.
