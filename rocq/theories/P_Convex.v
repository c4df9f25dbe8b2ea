(** Property theorems C69-C73 (convex plasma boundaries). *)
From Coq Require Import ZArith.
From Coquelicot Require Rcomplements.
From Verif Require Import Base Profile Geometry SpecGeometry GeometryProofs P_Geometry Flux SpecFlux FluxProofs P_Flux
  Space SpecSpace SpaceProofs P_Space SpecConvex ConvexProofs DShape ConvexFlux.
Open Scope R_scope.

(** C69: every surface psi > 0 of every accepted plasma shape is a strictly convex anticlockwise polygon. *)
Theorem C69_fausser_convex : forall i psi n s, shape i -> 0 < psi -> (4 <= n)%nat ->
  flux_surface (Fausser i) psi n = Ok s -> convex_polygon (points s).
Proof.
  intros i psi n s H P Hn E. rewrite (fausser_points i psi n s H ltac:(lia) E). cbn [points].
  destruct (scale_pos i psi H P). destruct (shape_facts i H) as (_ & _ & _ & Hd & _).
  apply placed_convex; try assumption. apply dpoly_convex; [exact Hd|lia].
Qed.
Print Assumptions C69_fausser_convex.

Lemma sauter_points i psi n s : shape i -> (2 <= n)%nat -> squareness i = 0 -> flux_surface (Sauter i) psi n = Ok s ->
  s = SClosed (map (placed (psi * minor_radius i) (kappa i * (psi * minor_radius i)) (r_0 i) (z_0 i)) (dpoly (delta i) (n - 1))).
Proof.
  intros H Hn Q E. apply surface_inv in E; [|exact H]. destruct E as (_ & ->). f_equal. unfold dpoly. rewrite map_map.
  replace (S (n - 1)) with n by lia. apply map_ext. intro k. cbn [pt_of]. rewrite sauter_eq. unfold sauter. rewrite Q.
  unfold placed, affine, dpt, dcurve, angle; cbn [fst snd]. set (t := 2 * PI * INR k / INR (n - 1)).
  replace (t + 0 * sin (2 * t)) with t by ring. f_equal; ring.
Qed.
Theorem C69_sauter_convex : forall i psi n s, shape i -> squareness i = 0 -> 0 < psi -> (4 <= n)%nat ->
  flux_surface (Sauter i) psi n = Ok s -> convex_polygon (points s).
Proof.
  intros i psi n s H Q P Hn E. rewrite (sauter_points i psi n s H ltac:(lia) Q E). cbn [points].
  destruct (scale_pos i psi H P). destruct (shape_facts i H) as (_ & _ & _ & Hd & _).
  apply placed_convex; try assumption. apply dpoly_convex; [exact Hd|lia].
Qed.
Print Assumptions C69_sauter_convex.

(** Area, centroid and volume of convex surfaces: positive area, centroid within, true volume of revolution. *)
Theorem C69_area_centroid_volume : forall l, convex_polygon l -> (forall p, In p l -> 0 <= fst p) ->
  exists A c v, area (SClosed l) = Ok A /\ 0 < A /\ center_of_mass (SClosed l) = Ok c /\ in_polygon l c /\
    path_integral (fun x _ => x * x) l v /\ volume (SClosed l) = Ok (PI * v) /\ 0 <= v.
Proof.
  intros l C X. pose proof (convex_loop l C) as L. pose proof (convex_area l C) as A.
  assert (Ar : area (SClosed l) = Ok (edge_sum crs l / 2)) by (cbn [area]; rewrite (area_loop l L), Rabs_pos_eq; [reflexivity|lra]).
  assert (N : edge_sum crs l <> 0) by lra.
  pose proof (centroid_loop l L N) as Ce. eexists. eexists. exists (edge_sum (mom fst) l / 3).
  split; [exact Ar|]. split; [lra|]. split; [exact Ce|]. split; [|split; [|split]].
  - intros a b E.
    assert (T : forall c, turn a b c = (snd a - snd b) * fst c + (fst b - fst a) * snd c + (- (fst b - fst a) * snd a + fst a * (snd b - snd a))) by (intro c; unfold turn; ring).
    assert (P0 : In a l) by (apply (edge_In l a b E)).
    pose proof (centroid_halfplane l a _ (snd a - snd b) (fst b - fst a) (- (- (fst b - fst a) * snd a + fst a * (snd b - snd a))) L
      (convex_star l a (convex_vertex l a C P0)) N Ce) as Q.
    rewrite T. enough (- (- (fst b - fst a) * snd a + fst a * (snd b - snd a)) <= (snd a - snd b) * (edge_sum (mom fst) l / (3 * edge_sum crs l)) + (fst b - fst a) * (edge_sum (mom snd) l / (3 * edge_sum crs l))) by (cbn [fst snd]; lra).
    apply Q. intros p Hp. pose proof (convex_vertex l p C Hp a b E) as V. rewrite T in V. lra.
  - destruct L as (p & r & -> & Lr). rewrite <- (x2_dz (p :: r)) by (now exists p, r).
    replace (edge_sum (fun p q => (fst p * fst p + fst p * fst q + fst q * fst q) * (snd q - snd p)) (p :: r) / 3)
      with (edge_sum (fun p q => (fst p * fst p + fst p * fst q + fst q * fst q) * (snd q - snd p) / 3) (p :: r)).
    + apply path_integral_ex. apply edge_integral_x2.
    + unfold Rdiv at 2. rewrite Rmult_comm, <- edge_sum_scale. apply edge_sum_ext. intros. field.
  - rewrite (volume_loop l L). destruct (Rltb_spec 0 (edge_sum crs l)) as [_|Q]; [|lra]. f_equal. field.
  - destruct L as (p & r & E & Lr). assert (L : loop l) by (now exists p, r). assert (Hp : In p l) by (rewrite E; now left).
    rewrite (mom_turn l p fst 1 0) by (try exact L; intros; ring). apply Rmult_le_pos; [|lra].
    apply edge_sum_edges. intros a b Eab. destruct (edge_In l a b Eab) as [Ia Ib]. apply Rmult_le_pos.
    + pose proof (X p Hp). pose proof (X a Ia). pose proof (X b Ib). lra.
    + rewrite turn_cyclic. exact (convex_vertex l p C Hp a b Eab).
Qed.
Print Assumptions C69_area_centroid_volume.

(** A large squareness makes a Sauter boundary non-convex. *)
Theorem C69_squareness_refuted : forall i, shape i -> 2 * minor_radius i < squareness i ->
  exists s, flux_surface (Sauter i) 1 9 = Ok s /\ ~ convex_polygon (points s).
Proof.
  intros i H Q. destruct (surface_ok (Sauter i) 1 9 H ltac:(lia)) as [E _]. eexists. split; [exact E|]. cbn [points]. intro C.
  destruct (shape_facts i H) as (H1 & H2 & H3 & H4 & H5 & H6 & H7).
  pose proof (convex_vertex _ _ C (map_seq_in (fun k => pt_of (Sauter i) 1 (angle 9 k)) 9 2 ltac:(lia)) _ _
    (map_seq_edge (fun k => pt_of (Sauter i) 1 (angle 9 k)) 8 0 ltac:(lia))) as T.
  cbv beta in T. cbn [pt_of] in T. rewrite !sauter_eq in T. unfold sauter, turn in T; cbn [fst snd] in T.
  rewrite angle_0 in T.
  assert (A1 : 2 * angle 9 1 = PI / 2) by (unfold angle; cbn; field). assert (A2 : angle 9 2 = PI / 2) by (unfold angle; cbn; field).
  assert (A3 : 2 * angle 9 2 = PI) by (rewrite A2; field). rewrite A1, A3, A2, sin_PI2, sin_PI in T.
  rewrite Rmult_0_r, sin_0, !Rmult_0_r, !Rplus_0_r, cos_0, sin_0, sin_PI2 in T.
  set (a := minor_radius i) in *. set (x := squareness i) in *. set (k := kappa i) in *.
  set (c1 := cos _) in T. set (s1 := sin _) in T. set (c2 := cos _) in T.
  assert (B1 : c1 <= 1) by apply COS_bound. assert (B2 : -1 <= s1 <= 1) by apply SIN_bound. assert (B3 : -1 <= c2 <= 1) by apply COS_bound.
  assert (T' : 0 <= a * k * ((a * (c1 - 1) - x) + a * (1 - c2) * s1)) by (eapply Rle_trans; [exact T|]; right; ring).
  assert (Neg : (a * (c1 - 1) - x) + a * (1 - c2) * s1 < 0).
  { assert ((1 - c2) * s1 <= 2) by nra. assert (a * ((1 - c2) * s1) <= a * 2) by (apply Rmult_le_compat_l; lra).
    assert (a * (c1 - 1) <= 0) by nra. lra. }
  assert (0 < a * k) by (apply Rmult_lt_0_compat; lra). nra.
Qed.
Print Assumptions C69_squareness_refuted.

(** C70: on a convex boundary the sampler returns exactly the lattice points within it that lie above its lowest level. *)
Theorem C70_convex_sampling : forall lcfs o h ss, convex_polygon lcfs -> 0 < h -> sample_space_2d mpl_inside lcfs o h = Ok ss ->
  forall p, (exists s, In s ss /\ (sx s, sz s) = p) <->
    (exists i j, p = lattice o h i j) /\ in_polygon lcfs p /\ exists v, In v lcfs /\ snd v < snd p.
Proof.
  intros lcfs o h ss C Hh E p. split.
  - intros (s & Hs & <-). destruct (C28_distinct_lattice_cells_inside mpl_inside lcfs o h ss Hh E) as [A _].
    destruct (A s Hs) as [In' La]. split; [exact La|]. now apply (inside_convex lcfs C).
  - intros ((i & j & ->) & Pi). apply (C29_no_cell_missed mpl_inside lcfs o h ss Hh C29_crossing_test_stays_in_box E).
    apply (inside_convex lcfs C). exact Pi.
Qed.
Print Assumptions C70_convex_sampling.

Lemma o_point_of i rho n c m : from_parameterisation (Fausser i) rho n c = Ok m ->
  flux_surface (Fausser i) 1.0 n = Ok (map_lcfs m) /\
  (op_x (map_o_point m), op_z (map_o_point m)) = (r_0 i + shafranov_shift i, z_0 i) /\
  exists it, map_interp m = IParam it /\ pi_param it = Fausser i /\ pi_n_points it = n.
Proof.
  intro E. unfold from_parameterisation in E. destruct (flux_surface (Fausser i) 1.0 n) as [s| |]; cbn [bind] in E; try discriminate.
  unfold make_param_interp in E. destruct (flux_surfaces _ _ _) as [fs| |]; cbn [bind] in E; try discriminate.
  destruct fs; try discriminate. destruct (normalise_psi _ _ _ _) as [ps| |]; cbn [bind] in E; try discriminate.
  injection E as <-. split; [reflexivity|]. split; [reflexivity|]. eexists. split; [reflexivity|]. split; reflexivity.
Qed.
Lemma lcfs_points i n s : shape i -> (2 <= n)%nat -> flux_surface (Fausser i) 1.0 n = Ok s ->
  points s = map (placed (minor_radius i) (kappa i * minor_radius i) (r_0 i) (z_0 i)) (dpoly (delta i) (n - 1)).
Proof.
  intros H Hn E. rewrite (fausser_points i 1.0 n s H Hn E). cbn [points]. f_equal. unfold placed, major.
  replace (1.0 * minor_radius i) with (minor_radius i) by lra.
  replace (r_0 i + shafranov_shift i * (1 - 1.0 ^ 2)) with (r_0 i) by (cbn [pow]; lra). reflexivity.
Qed.

(** The magnetic axis is strictly inside the boundary of every plasma drawn with at least five points, so that every
    cell size gives a non-empty source whose cells include the axis. *)
Theorem C70_axis_inside : forall i rho n c m, shape i -> (5 <= n)%nat -> from_parameterisation (Fausser i) rho n c = Ok m ->
  in_interior (points (map_lcfs m)) (op_x (map_o_point m), op_z (map_o_point m)) /\
  forall h, 0 < h -> exists ss s, sample_space_2d mpl_inside (points (map_lcfs m)) (op_x (map_o_point m), op_z (map_o_point m)) h = Ok ss /\
    In s ss /\ (sx s, sz s) = (op_x (map_o_point m), op_z (map_o_point m)).
Proof.
  intros i rho n c m H Hn E. destruct (o_point_of i rho n c m E) as (El & Eo & _). rewrite Eo.
  destruct (shape_facts i H) as (H1 & H2 & H3 & H4 & H5 & H6 & H7).
  assert (C : convex_polygon (points (map_lcfs m))) by (apply (C69_fausser_convex i 1.0 n); [exact H|lra|lia|exact El]).
  assert (I : in_interior (points (map_lcfs m)) (r_0 i + shafranov_shift i, z_0 i)).
  { rewrite (lcfs_points i n _ H ltac:(lia) El). set (e := shafranov_shift i / minor_radius i).
    assert (He : 0 <= e < 1).
    { unfold e. split; [apply Rmult_le_pos; [lra|left; apply Rinv_0_lt_compat; lra]|]. apply (Rmult_lt_reg_r (minor_radius i)); [lra|].
      replace (shafranov_shift i / minor_radius i * minor_radius i) with (shafranov_shift i) by (field; lra). lra. }
    replace (r_0 i + shafranov_shift i, z_0 i) with (placed (minor_radius i) (kappa i * minor_radius i) (r_0 i) (z_0 i) (e, 0)).
    2:{ unfold placed, affine, e; cbn [fst snd]. f_equal; field; lra. }
    apply placed_in_interior; [lra|apply Rmult_lt_0_compat; lra|]. intros a b Eab.
    pose proof (center_interior (delta i) (n - 1) H4 ltac:(lia) ltac:(lia) a b Eab) as T0.
    pose proof (convex_vertex _ _ (dpoly_convex (delta i) (n - 1) H4 ltac:(lia)) (dpt_in (delta i) (n - 1) ltac:(lia) 0%nat ltac:(lia)) a b Eab) as T1.
    rewrite dpt_0 in T1.
    replace (turn a b (e, 0)) with ((1 - e) * turn a b (0, 0) + e * turn a b (1, 0)) by (unfold turn; cbn [fst snd]; ring).
    assert (0 < (1 - e) * turn a b (0, 0)) by (apply Rmult_lt_0_compat; lra).
    assert (0 <= e * turn a b (1, 0)) by (apply Rmult_le_pos; lra). lra. }
  split; [exact I|]. intros h Hh. destruct (C29_o_point_sampled (points (map_lcfs m)) (r_0 i + shafranov_shift i, z_0 i) h Hh) as (ss & s & Es & Hs & P1 & P2).
  - apply (inside_convex _ C). split; [now apply interior_in|]. now apply (interior_above_bottom _ C).
  - exists ss, s. split; [exact Es|]. split; [exact Hs|]. cbn [fst snd] in P1, P2. now rewrite P1, P2.
Qed.
Print Assumptions C70_axis_inside.

(** The same for Sauter's parameterisation without squareness: its boundary and O-point are those of Fausser's. *)
Lemma sauter_as_fausser i rho n c m : shape i -> squareness i = 0 -> (2 <= n)%nat -> from_parameterisation (Sauter i) rho n c = Ok m ->
  exists m', from_parameterisation (Fausser i) [1] n LINEAR = Ok m' /\ points (map_lcfs m') = points (map_lcfs m) /\ map_o_point m' = map_o_point m.
Proof.
  intros H Q Hn E. destruct (C42_nodes_and_labels (Fausser i) [1] n LINEAR H ltac:(lia)) as (m' & it & E' & _ & El & _); [exists 1; cbn; split; [auto|lra]|].
  exists m'. split; [exact E'|].
  assert (G : flux_surface (Sauter i) 1.0 n = Ok (map_lcfs m) /\ map_o_point m = {| op_x := r_0 i + shafranov_shift i; op_z := z_0 i; op_psi := 0.0 |}).
  { unfold from_parameterisation in E. destruct (flux_surface (Sauter i) 1.0 n) as [s| |]; cbn [bind] in E; try discriminate.
    destruct (make_param_interp _ _ _ _ _) as [it'| |]; cbn [bind] in E; try discriminate. injection E as <-. split; reflexivity. }
  destruct G as [G1 G2]. split.
  - rewrite (lcfs_points i n _ H Hn El). rewrite (sauter_points i 1.0 n _ H Hn Q G1). cbn [points]. f_equal. replace (1.0 * minor_radius i) with (minor_radius i) by lra. reflexivity.
  - rewrite G2. unfold from_parameterisation in E'. rewrite El in E'. cbn [bind] in E'.
    destruct (make_param_interp _ _ _ _ _) as [it'| |]; cbn [bind] in E'; try discriminate. injection E' as <-. reflexivity.
Qed.
Theorem C70_axis_inside_sauter : forall i rho n c m, shape i -> squareness i = 0 -> (5 <= n)%nat -> from_parameterisation (Sauter i) rho n c = Ok m ->
  in_interior (points (map_lcfs m)) (op_x (map_o_point m), op_z (map_o_point m)) /\
  forall h, 0 < h -> exists ss s, sample_space_2d mpl_inside (points (map_lcfs m)) (op_x (map_o_point m), op_z (map_o_point m)) h = Ok ss /\
    In s ss /\ (sx s, sz s) = (op_x (map_o_point m), op_z (map_o_point m)).
Proof.
  intros i rho n c m H Q Hn E. destruct (sauter_as_fausser i rho n c m H Q ltac:(lia) E) as (m' & E' & El & Eo).
  rewrite <- El, <- Eo. exact (C70_axis_inside i [1] n LINEAR m' H Hn E').
Qed.
Print Assumptions C70_axis_inside_sauter.

(** With four points it can lie outside, and coarse cells then give no source at all. *)
Theorem C70_four_points_refuted : forall i rho c m h ss, shape i -> delta i = -1 -> shafranov_shift i = 0 ->
  from_parameterisation (Fausser i) rho 4 c = Ok m -> 0 < h ->
  sample_space_2d mpl_inside (points (map_lcfs m)) (op_x (map_o_point m), op_z (map_o_point m)) h = Ok ss ->
  (~ exists s, In s ss /\ (sx s, sz s) = (op_x (map_o_point m), op_z (map_o_point m))) /\
  (kappa i * minor_radius i < h -> ss = []).
Proof.
  intros i rho c m h ss H D0 S0 E Hh Es. destruct (o_point_of i rho 4 c m E) as (El & Eo & _). rewrite Eo in *. rewrite S0, Rplus_0_r in *.
  destruct (shape_facts i H) as (H1 & H2 & H3 & H4 & H5 & H6 & H7).
  assert (C : convex_polygon (points (map_lcfs m))) by (apply (C69_fausser_convex i 1.0 4); [exact H|lra|lia|exact El]).
  pose proof (lcfs_points i 4 _ H ltac:(lia) El) as Ep.
  pose proof (C70_convex_sampling _ _ h ss C Hh Es) as Sp.
  assert (Out : ~ in_polygon (points (map_lcfs m)) (r_0 i, z_0 i)).
  { intro P. rewrite Ep in P.
    replace (r_0 i, z_0 i) with (placed (minor_radius i) (kappa i * minor_radius i) (r_0 i) (z_0 i) (0, 0)) in P by (unfold placed, affine; cbn [fst snd]; f_equal; ring).
    apply placed_in_polygon in P; [|lra|apply Rmult_lt_0_compat; lra].
    specialize (P _ _ (map_seq_edge (dpt (delta i) 3) 3 1 ltac:(lia))). rewrite D0 in P.
    assert (Mi : dpt (-1) 3 2 = (fst (dpt (-1) 3 1), - snd (dpt (-1) 3 1))) by exact (dpt_hw_mirror (-1) 3 ltac:(lia) 1 ltac:(lia)).
    rewrite Mi in P.
    unfold turn in P; cbn [fst snd] in P. unfold dpt, dcurve in P; cbn [fst snd] in P. change (INR 1) with 1 in P. replace (INR 3) with 3 in P by (cbn; ring).
    replace (2 * PI * 1 / 3) with (2 * (PI / 3)) in P by field.
    assert (Sn : sin (2 * (PI / 3)) = sqrt 3 / 2) by apply sin_2PI3. rewrite Sn in P.
    assert (Sq : 1.7 < sqrt 3 < 1.8).
    { split; [rewrite <- (sqrt_Rsqr 1.7) by lra; apply sqrt_lt_1; unfold Rsqr; lra|rewrite <- (sqrt_Rsqr 1.8) by lra; apply sqrt_lt_1; unfold Rsqr; lra]. }
    pose proof PI_4. pose proof PI2_3_2.
    assert (Co : 0 < cos (2 * (PI / 3) + -1 * (sqrt 3 / 2))) by (apply cos_gt_0; lra). nra. }
  split.
  - intros (s & Hs & Q). apply Out. apply (Sp (r_0 i, z_0 i)). eauto.
  - intro Hb. destruct ss as [|s ss]; [reflexivity|exfalso].
    destruct (proj1 (Sp (sx s, sz s)) (ex_intro _ s (conj (or_introl eq_refl) eq_refl))) as ((u & v & L) & P & _).
    assert (Box : forall p, in_polygon (points (map_lcfs m)) p -> Rabs (fst p - r_0 i) <= minor_radius i /\ Rabs (snd p - z_0 i) <= kappa i * minor_radius i).
    { intros p Hp. pose proof (convex_star _ _ Hp) as St. pose proof (convex_area _ C) as Ar.
      assert (V : forall q, In q (points (map_lcfs m)) -> r_0 i - minor_radius i <= fst q <= r_0 i + minor_radius i /\ z_0 i - kappa i * minor_radius i <= snd q <= z_0 i + kappa i * minor_radius i).
      { intros q Hq. destruct (C37_bounds i 1.0 4 _ q H ltac:(lra) El Hq) as (_ & B1 & B2). apply Rcomplements.Rabs_le_between in B1, B2.
        replace (shafranov_shift i * (1 - 1.0 ^ 2)) with 0 in B1 by (cbn [pow]; lra). lra. }
      pose proof (star_center_halfplane _ p 1 0 (r_0 i - minor_radius i) (convex_loop _ C) St ltac:(lra) ltac:(intros q Hq; specialize (V q Hq); lra)).
      pose proof (star_center_halfplane _ p (-1) 0 (- (r_0 i + minor_radius i)) (convex_loop _ C) St ltac:(lra) ltac:(intros q Hq; specialize (V q Hq); lra)).
      pose proof (star_center_halfplane _ p 0 1 (z_0 i - kappa i * minor_radius i) (convex_loop _ C) St ltac:(lra) ltac:(intros q Hq; specialize (V q Hq); lra)).
      pose proof (star_center_halfplane _ p 0 (-1) (- (z_0 i + kappa i * minor_radius i)) (convex_loop _ C) St ltac:(lra) ltac:(intros q Hq; specialize (V q Hq); lra)).
      split; apply Rabs_le; lra. }
    rewrite L in P. destruct (Box _ P) as [B1 B2]. unfold lattice in B1, B2; cbn [fst snd] in B1, B2.
    assert (minor_radius i <= kappa i * minor_radius i) by nra.
    assert (Z : forall w b, Rabs (b + IZR w * h - b) <= kappa i * minor_radius i -> w = 0%Z).
    { intros w b B. replace (b + IZR w * h - b) with (IZR w * h) in B by ring. rewrite Rabs_mult, (Rabs_pos_eq h) in B by lra.
      assert (Lt : Rabs (IZR w) < 1). { apply (Rmult_lt_reg_r h); [exact Hh|]. lra. }
      rewrite <- abs_IZR in Lt. apply (lt_IZR _ 1) in Lt. lia. }
    assert (u = 0%Z) by (apply (Z u (r_0 i)); lra). assert (v = 0%Z) by (apply (Z v (z_0 i)); lra). subst u v.
    apply Out. replace (r_0 i, z_0 i) with (lattice (r_0 i, z_0 i) h 0 0); [exact P|]. unfold lattice; cbn [fst snd]. f_equal; ring.
Qed.
Print Assumptions C70_four_points_refuted.

(** C72: inner surfaces lie strictly inside outer ones (shifts up to half the minor radius). *)
Theorem C72_surfaces_nested : forall i p q n sp sq, shape i -> shafranov_shift i <= minor_radius i / 2 -> 0 <= p < q -> q <= 1 -> (5 <= n)%nat ->
  flux_surface (Fausser i) p n = Ok sp -> flux_surface (Fausser i) q n = Ok sq ->
  (forall c, In c (points sp) -> in_interior (points sq) c) /\
  (0 < p -> forall c, in_polygon (points sp) c -> in_interior (points sq) c).
Proof.
  intros i p q n sp sq H Hs Hp Hq Hn Ep Eq. destruct (shape_facts i H) as (H1 & H2 & H3 & H4 & H5 & H6 & H7).
  assert (V : forall c, In c (points sp) -> in_interior (points sq) c).
  { intros c Hc. rewrite (fausser_points i p n sp H ltac:(lia) Ep) in Hc. rewrite (fausser_points i q n sq H ltac:(lia) Eq). cbn [points] in *.
    destruct (scale_pos i q H ltac:(lra)) as [Q1 Q2]. apply in_map_iff in Hc. destruct Hc as (u & <- & Hu).
    set (e := shafranov_shift i / minor_radius i).
    assert (He : 0 <= e <= / 2).
    { unfold e. split; [apply Rmult_le_pos; [lra|left; apply Rinv_0_lt_compat; lra]|]. apply (Rmult_le_reg_r (minor_radius i)); [lra|].
      replace (shafranov_shift i / minor_radius i * minor_radius i) with (shafranov_shift i) by (field; lra). lra. }
    set (w := e * (q ^ 2 - p ^ 2) / q).
    replace (placed (p * minor_radius i) (kappa i * (p * minor_radius i)) (major i p) (z_0 i) u)
      with (placed (q * minor_radius i) (kappa i * (q * minor_radius i)) (major i q) (z_0 i) (p / q * fst u + w, p / q * snd u)).
    2:{ unfold placed, affine, major, w, e; cbn [fst snd]. f_equal; field; split; lra. }
    apply placed_in_interior; try assumption. intros a b Eab.
    pose proof (center_interior (delta i) (n - 1) H4 ltac:(lia) ltac:(lia) a b Eab) as T0.
    pose proof (dpoly_convex (delta i) (n - 1) H4 ltac:(lia)) as C.
    pose proof (convex_vertex _ _ C (dpt_in (delta i) (n - 1) ltac:(lia) 0%nat ltac:(lia)) a b Eab) as T1. rewrite dpt_0 in T1.
    pose proof (convex_vertex _ u C Hu a b Eab) as T2.
    assert (Hr : 0 <= p / q) by (apply Rmult_le_pos; [lra|left; apply Rinv_0_lt_compat; lra]).
    assert (Hw : 0 <= w) by (unfold w; apply Rmult_le_pos; [apply Rmult_le_pos; [lra|nra]|left; apply Rinv_0_lt_compat; lra]).
    assert (Hsum : p / q + w < 1).
    { apply (Rmult_lt_reg_r q); [lra|]. unfold w. replace ((p / q + e * (q ^ 2 - p ^ 2) / q) * q) with (p + e * ((q + p) * (q - p))) by (field; lra).
      assert (e * ((q + p) * (q - p)) <= / 2 * ((q + p) * (q - p))) by (apply Rmult_le_compat_r; [nra|lra]). nra. }
    replace (turn a b (p / q * fst u + w, p / q * snd u)) with (p / q * turn a b u + w * turn a b (1, 0) + (1 - (p / q + w)) * turn a b (0, 0))
      by (unfold turn; cbn [fst snd]; ring).
    assert (0 <= p / q * turn a b u) by (apply Rmult_le_pos; lra). assert (0 <= w * turn a b (1, 0)) by (apply Rmult_le_pos; lra).
    assert (0 < (1 - (p / q + w)) * turn a b (0, 0)) by (apply Rmult_lt_0_compat; lra). lra. }
  split; [exact V|]. intros Hp0 c Hc a b Eab. apply (region_halfplane (points sp)); [|exact Hc|].
  - apply (C69_fausser_convex i p n); [exact H|exact Hp0|lia|exact Ep].
  - intros x Hx. exact (V x Hx a b Eab).
Qed.
Print Assumptions C72_surfaces_nested.

(** C73: how the area and the volume within a surface depend on psi. *)
Theorem C73_area_volume_law : forall i psi n s s1 A V, shape i -> (4 <= n)%nat -> 0 <= psi ->
  flux_surface (Fausser i) psi n = Ok s -> flux_surface (Fausser i) 1 n = Ok s1 -> area s1 = Ok A -> volume s1 = Ok V ->
  area s = Ok (psi ^ 2 * A) /\
  volume s = Ok (psi ^ 3 * V + 2 * PI * (r_0 i * (1 - psi) + shafranov_shift i * (1 - psi ^ 2)) * (psi ^ 2 * A)).
Proof.
  intros i psi n s s1 A V H Hn P E E1 EA EV. destruct (shape_facts i H) as (H1 & H2 & H3 & H4 & H5 & H6 & H7).
  rewrite (fausser_points i psi n s H ltac:(lia) E). rewrite (fausser_points i 1 n s1 H ltac:(lia) E1) in EA, EV.
  pose proof (dpoly_crs (delta i) (n - 1) H4 ltac:(lia)) as C. pose proof (convex_loop _ (dpoly_convex (delta i) (n - 1) H4 ltac:(lia))) as L.
  assert (Q : forall x, 0 <= x * minor_radius i * (kappa i * (x * minor_radius i))).
  { intro x. replace (x * minor_radius i * (kappa i * (x * minor_radius i))) with (kappa i * (x * minor_radius i) ^ 2) by ring.
    apply Rmult_le_pos; [lra|apply pow2_ge_0]. }
  rewrite (placed_area _ _ _ _ _ L (Q psi) C), (placed_volume _ _ _ _ _ L (Q psi) C).
  rewrite (placed_area _ _ _ _ _ L (Q 1) C) in EA. rewrite (placed_volume _ _ _ _ _ L (Q 1) C) in EV.
  revert EA EV. generalize (edge_sum crs (dpoly (delta i) (n - 1))) (edge_sum (mom fst) (dpoly (delta i) (n - 1))). intros Cr Mo EA EV.
  injection EA as <-. injection EV as <-. unfold major. split; apply (f_equal Ok); field.
Qed.
Print Assumptions C73_area_volume_law.

Theorem C73_volume_increases : forall contours i rho n c m p q, shape i -> shafranov_shift i <= minor_radius i / 2 -> (4 <= n)%nat ->
  from_parameterisation (Fausser i) rho n c = Ok m -> 0 <= p < q -> q <= 1 ->
  exists Vp Vq, map_volume contours m p = Ok Vp /\ map_volume contours m q = Ok Vq /\ 0 <= Vp < Vq.
Proof.
  intros contours i rho n c m p q H Hs Hn E Hp Hq. destruct (shape_facts i H) as (H1 & H2 & H3 & H4 & H5 & H6 & H7).
  destruct (o_point_of i rho n c m E) as (_ & _ & it & Ei & Epp & Enp).
  unfold map_volume, get_flux_surface, interp_get_flux_surface, param_get_flux_surface. rewrite Ei, Epp, Enp.
  destruct (surface_ok (Fausser i) p n H ltac:(lia)) as [E1 _]. destruct (surface_ok (Fausser i) q n H ltac:(lia)) as [E2 _].
  rewrite E1, E2. cbn [bind]. rewrite (fausser_points i p n _ H ltac:(lia) E1), (fausser_points i q n _ H ltac:(lia) E2).
  pose proof (dpoly_crs (delta i) (n - 1) H4 ltac:(lia)) as C. pose proof (dpoly_mom (delta i) (n - 1) H4 ltac:(lia)) as M.
  pose proof (convex_loop _ (dpoly_convex (delta i) (n - 1) H4 ltac:(lia))) as L.
  assert (Q : forall x, 0 <= x * minor_radius i * (kappa i * (x * minor_radius i))).
  { intro x. replace (x * minor_radius i * (kappa i * (x * minor_radius i))) with (kappa i * (x * minor_radius i) ^ 2) by ring.
    apply Rmult_le_pos; [lra|apply pow2_ge_0]. }
  rewrite (placed_volume _ _ _ _ _ L (Q p) C), (placed_volume _ _ _ _ _ L (Q q) C).
  do 2 eexists. split; [reflexivity|]. split; [reflexivity|].
  set (Cr := edge_sum crs (dpoly (delta i) (n - 1))) in *. set (Mo := edge_sum (mom fst) (dpoly (delta i) (n - 1))) in *.
  set (a := minor_radius i) in *. set (k := kappa i) in *. set (D := shafranov_shift i) in *. set (r := r_0 i) in *. pose proof PI_RGT_0.
  assert (F : forall x, PI / 3 * (x * a * (k * (x * a)) * (x * a * Mo + 3 * major i x * Cr)) =
     PI / 3 * k * a ^ 2 * (x ^ 2 * (x * a * (Mo + Cr) + (3 * (r + D * (1 - x ^ 2)) - x * a) * Cr))).
  { intro x. unfold major. fold r D. ring. }
  rewrite !F. set (W := PI / 3 * k * a ^ 2).
  assert (HW : 0 < W) by (unfold W; apply Rmult_lt_0_compat; [apply Rmult_lt_0_compat; lra|apply pow_lt; lra]).
  set (N := Mo + Cr) in *. assert (HN : 0 <= N) by (unfold N; lra).
  assert (Fp : forall x, 0 <= x <= 1 -> 0 <= x ^ 2 * (x * a * N + (3 * (r + D * (1 - x ^ 2)) - x * a) * Cr)).
  { intros x Hx. apply Rmult_le_pos; [apply pow2_ge_0|]. apply Rplus_le_le_0_compat; [apply Rmult_le_pos; [apply Rmult_le_pos; lra|exact HN]|].
    apply Rmult_le_pos; [|lra]. assert (0 <= D * (1 - x ^ 2)) by (apply Rmult_le_pos; nra). nra. }
  split; [apply Rmult_le_pos; [lra|apply Fp; lra]|]. apply Rmult_lt_compat_l; [exact HW|].
  assert (G : q ^ 2 * (q * a * N + (3 * (r + D * (1 - q ^ 2)) - q * a) * Cr) - p ^ 2 * (p * a * N + (3 * (r + D * (1 - p ^ 2)) - p * a) * Cr)
    = (q ^ 3 - p ^ 3) * a * N + (q - p) * (3 * (q + p) * r - a * (q ^ 2 + q * p + p ^ 2) + 3 * D * (q + p) * (1 - (q ^ 2 + p ^ 2))) * Cr) by ring.
  assert (T1 : 0 <= (q ^ 3 - p ^ 3) * a * N).
  { apply Rmult_le_pos; [apply Rmult_le_pos; [|lra]|exact HN]. assert (p ^ 3 <= q ^ 3) by (apply pow_incr; lra). lra. }
  assert (T2 : 0 < 3 * (q + p) * r - a * (q ^ 2 + q * p + p ^ 2) + 3 * D * (q + p) * (1 - (q ^ 2 + p ^ 2))).
  { assert (q ^ 2 + q * p + p ^ 2 <= 3 / 2 * (q + p)) by nra.
    assert (B1 : a * (q ^ 2 + q * p + p ^ 2) <= a * (3 / 2 * (q + p))) by (apply Rmult_le_compat_l; lra).
    assert (B2 : D * (q + p) * -1 <= D * (q + p) * (1 - (q ^ 2 + p ^ 2))) by (apply Rmult_le_compat_l; [apply Rmult_le_pos; lra|nra]).
    assert (B3 : D * (q + p) <= a / 2 * (q + p)) by (apply Rmult_le_compat_r; lra).
    assert (B4 : a * (q + p) < r * (q + p)) by (apply Rmult_lt_compat_r; lra). lra. }
  assert (T3 : 0 < (q - p) * (3 * (q + p) * r - a * (q ^ 2 + q * p + p ^ 2) + 3 * D * (q + p) * (1 - (q ^ 2 + p ^ 2))) * Cr).
  { apply Rmult_lt_0_compat; [apply Rmult_lt_0_compat; lra|exact C]. }
  lra.
Qed.
Print Assumptions C73_volume_increases.

(** A shape that meets all of these hypotheses, and one for each refutation. *)
Example C69_C73_example : exists i m, shape i /\ shafranov_shift i <= minor_radius i / 2 /\
  from_parameterisation (Fausser i) [1 / 2; 1] 50 LINEAR = Ok m /\
  (forall p, In p (points (map_lcfs m)) -> 0 <= fst p) /\
  exists ss, sample_space_2d mpl_inside (points (map_lcfs m)) (op_x (map_o_point m), op_z (map_o_point m)) (1 / 10) = Ok ss /\ ss <> [].
Proof.
  destruct shape_example as (i & _ & Sh & _ & _ & Hs).
  destruct (C42_nodes_and_labels (Fausser i) [1 / 2; 1] 50 LINEAR Sh ltac:(lia)) as (m & it & Em & _ & El & _); [exists 1; cbn; split; [auto|lra]|].
  exists i, m. split; [exact Sh|]. split; [exact Hs|]. split; [exact Em|]. split.
  - intros p Hp. left. apply (C37_bounds i 1.0 50 _ p Sh ltac:(lra) El Hp).
  - destruct (C70_axis_inside i _ 50 LINEAR m Sh ltac:(lia) Em) as [_ A]. destruct (A (1 / 10) ltac:(lra)) as (ss & s & E & Hs' & _).
    exists ss. split; [exact E|]. intros ->. contradiction.
Qed.
Example C69_C70_refutation_examples :
  (exists i, shape i /\ 2 * minor_radius i < squareness i) /\
  (exists i m, shape i /\ delta i = -1 /\ shafranov_shift i = 0 /\ from_parameterisation (Fausser i) [1] 4 LINEAR = Ok m).
Proof.
  assert (Hs : forall d, -1 <= d <= 1 -> sensible 3 3 1 d 0) by (intros; unfold sensible; rewrite Rabs_R0; lra). split.
  - pose proof (lcfs_ok 3 0 3 1 0 0 3 (Hs 0 ltac:(lra))) as E. eexists. split; [exists 3, 0, 3, 1, 0, 0, 3; exact E|]. cbn. lra.
  - pose proof (lcfs_ok 3 0 3 1 (-1) 0 0 (Hs (-1) ltac:(lra))) as E. set (i := {| r_0 := 3 |}) in E.
    assert (Sh : shape i) by (exists 3, 0, 3, 1, (-1), 0, 0; exact E).
    destruct (C42_nodes_and_labels (Fausser i) [1] 4 LINEAR Sh ltac:(lia)) as (m & it & Em & _); [exists 1; cbn; split; [auto|lra]|].
    exists i, m. split; [exact Sh|]. split; [reflexivity|]. split; [apply Rabs_R0|exact Em].
Qed.
