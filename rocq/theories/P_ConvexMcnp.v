(** Property theorem C71: the MCNP bins of a parameterised plasma. *)
From Coq Require Import List ZArith Lia Lra.
From Verif Require Import Base Profile Geometry SpecGeometry Flux SpecFlux FluxProofs P_Flux Space SpecSpace P_Space
  SpecConvex ConvexProofs DShape ConvexFlux P_Convex Source SpecSource Mcnp SpecMcnp SpecSdef P_McnpGrid.
Import ListNotations.
Open Scope R_scope.

(** C71: the cells of every parameterised plasma fill each column and each row without gaps, so that the radial and
    vertical bins of the MCNP source are exactly the cells, for every cell size. *)
Theorem C71_no_gaps : forall i rho n c m h ss v, shape i -> (4 <= n)%nat -> from_parameterisation (Fausser i) rho n c = Ok m -> 0 < h ->
  sample_space_2d mpl_inside (points (map_lcfs m)) (op_x (map_o_point m), op_z (map_o_point m)) h = Ok ss ->
  let cs := columns (combine (combine (map sx ss) (map sz ss)) v) in
  contiguous h (map fst cs) /\ Forall (fun c => contiguous h (heights c)) cs.
Proof.
  intros i rho n c m h ss v H Hn E Hh Es. destruct (o_point_of i rho n c m E) as (El & Eo & _). rewrite Eo in *.
  destruct (shape_facts i H) as (H1 & H2 & H3 & H4 & H5 & H6 & H7).
  assert (C : convex_polygon (points (map_lcfs m))) by (apply (C69_fausser_convex i 1.0 n); [exact H|lra|lia|exact El]).
  pose proof (lcfs_points i n _ H ltac:(lia) El) as Ep.
  assert (PB : 0 < kappa i * minor_radius i) by (apply Rmult_lt_0_compat; lra).
  (* up-down symmetry of the region *)
  assert (Mir : forall x z, in_polygon (points (map_lcfs m)) (x, z) -> in_polygon (points (map_lcfs m)) (x, 2 * z_0 i - z)).
  { intros x z P. rewrite Ep in *. destruct (placed_surj (minor_radius i) (kappa i * minor_radius i) (r_0 i) (z_0 i) ltac:(lra) PB (x, z)) as ([x' z'] & Q).
    rewrite Q in P. apply placed_in_polygon in P; [|lra|exact PB].
    unfold placed, affine in Q; cbn [fst snd] in Q. injection Q as Qx Qz.
    replace (x, 2 * z_0 i - z) with (placed (minor_radius i) (kappa i * minor_radius i) (r_0 i) (z_0 i) (x', - z')).
    - apply placed_in_polygon; [lra|exact PB|]. now apply dpoly_mirror; [lia|].
    - unfold placed, affine; cbn [fst snd]. f_equal; lra. }
  (* the lowest corner is below the mid-plane *)
  assert (Low : exists w, In w (points (map_lcfs m)) /\ snd w < z_0 i).
  { rewrite Ep. exists (placed (minor_radius i) (kappa i * minor_radius i) (r_0 i) (z_0 i) (dpt (delta i) (n - 1) (n - 1 - 1))).
    split; [apply in_map, map_seq_in; lia|]. rewrite dpt_hw_mirror by lia. unfold placed, affine; cbn [fst snd].
    assert (0 < snd (dpt (delta i) (n - 1) 1)).
    { unfold dpt, dcurve; cbn [snd]. pose proof PI_RGT_0. assert (3 <= INR (n - 1)) by (replace 3 with (INR 3) by (cbn; ring); apply le_INR; lia).
      change (INR 1) with 1. set (d := INR (n - 1)) in *. apply sin_gt_0; [apply Rdiv_lt_0_compat; lra|].
      apply (Rmult_lt_reg_r d); [lra|]. replace (2 * PI * 1 / d * d) with (2 * PI) by (field; lra). nra. }
    assert (0 < kappa i * minor_radius i * snd (dpt (delta i) (n - 1) 1)) by (apply Rmult_lt_0_compat; lra). lra. }
  assert (Btw : forall x z x' z' t, 0 <= t <= 1 -> in_polygon (points (map_lcfs m)) (x, z) -> in_polygon (points (map_lcfs m)) (x', z') ->
    in_polygon (points (map_lcfs m)) (x + t * (x' - x), z + t * (z' - z))).
  { intros x z x' z' t Ht P Q. exact (in_polygon_between (points (map_lcfs m)) (x, z) (x', z') t Ht P Q). }
  apply (C59_no_gaps mpl_inside (points (map_lcfs m)) (r_0 i + shafranov_shift i, z_0 i) h ss v Hh C29_crossing_test_stays_in_box Es).
  - intros a j k j' [L1 L2] I1 I2. apply (inside_convex _ C) in I1, I2. destruct I1 as (P1 & w & Hw & B1), I2 as (P2 & _).
    apply (inside_convex _ C). unfold lattice in *; cbn [fst snd] in *. apply IZR_le in L1, L2. split.
    + destruct (Req_dec (IZR j) (IZR j')) as [Ej|Nj]; [replace (IZR k) with (IZR j) by lra; exact P1|].
      pose proof (Btw _ _ _ _ ((IZR k - IZR j) / (IZR j' - IZR j)) ltac:(split; [apply Rmult_le_pos; [lra|left; apply Rinv_0_lt_compat; lra]|
        apply (Rmult_le_reg_r (IZR j' - IZR j)); [lra|]; unfold Rdiv; rewrite Rmult_assoc, Rinv_l by lra; lra]) P1 P2) as Q.
      match type of Q with in_polygon _ ?p => match goal with |- in_polygon _ ?q => replace q with p; [exact Q|] end end.
      f_equal; field; lra.
    + exists w. split; [exact Hw|]. assert (IZR j * h <= IZR k * h) by (apply Rmult_le_compat_r; lra). lra.
  - intros a k a' j j' [L1 L2] I1 I2. apply (inside_convex _ C) in I1, I2. destruct I1 as (P1 & _), I2 as (P2 & _). exists 0%Z.
    apply (inside_convex _ C). unfold lattice in *; cbn [fst snd] in *. apply IZR_le in L1, L2.
    assert (Mid : forall x z, in_polygon (points (map_lcfs m)) (x, z) -> in_polygon (points (map_lcfs m)) (x, z_0 i)).
    { intros x z P. pose proof (Btw _ _ _ _ (/ 2) ltac:(lra) P (Mir _ _ P)) as Q.
      match type of Q with in_polygon _ ?p => replace (x, z_0 i) with p; [exact Q|] end. f_equal; field. }
    apply Mid in P1, P2. rewrite Rmult_0_l, Rplus_0_r. split; [|exact Low].
    destruct (Req_dec (IZR a) (IZR a')) as [Ej|Nj]; [replace (IZR k) with (IZR a) by lra; exact P1|].
    pose proof (Btw _ _ _ _ ((IZR k - IZR a) / (IZR a' - IZR a)) ltac:(split; [apply Rmult_le_pos; [lra|left; apply Rinv_0_lt_compat; lra]|
        apply (Rmult_le_reg_r (IZR a' - IZR a)); [lra|]; unfold Rdiv; rewrite Rmult_assoc, Rinv_l by lra; lra]) P1 P2) as Q.
    match type of Q with in_polygon _ ?p => match goal with |- in_polygon _ ?q => replace q with p; [exact Q|] end end.
    f_equal; field; lra.
Qed.
Print Assumptions C71_no_gaps.
(** Its hypotheses are met: C69_C73_example in P_Convex.v has such a plasma, with a non-empty grid. *)
