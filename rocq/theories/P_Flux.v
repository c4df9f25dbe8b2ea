(** Property theorems C32, C37-C44 (flux surfaces and flux maps). *)
From Verif Require Import Base Profile Geometry SpecGeometry GeometryProofs Flux SpecFlux FluxProofs.
Open Scope R_scope.

(** C32 *)
Theorem C32_lcfs_validation : forall r0 z0 asp kap del shift sq,
  (sensible r0 asp kap del shift <-> exists i, make_lcfs_info r0 z0 asp kap del shift sq = Ok i) /\
  (~ sensible r0 asp kap del shift -> make_lcfs_info r0 z0 asp kap del shift sq = Err EFluxSurface) /\
  (forall i, make_lcfs_info r0 z0 asp kap del shift sq = Ok i ->
     r_0 i = r0 /\ z_0 i = z0 /\ aspect_ratio i = asp /\ kappa i = kap /\ delta i = del /\ squareness i = sq /\
     minor_radius i = r0 / asp /\ 0 < minor_radius i < r0 /\ shafranov_shift i = Rabs shift /\ shafranov_shift i < minor_radius i).
Proof.
  intros r0 z0 asp kap del shift sq. split; [split|split].
  - intro S. eexists. now apply lcfs_ok.
  - intros [i E]. now apply lcfs_inv in E.
  - apply lcfs_bad.
  - intros i E. assert (Sh : shape i) by (exists r0, z0, asp, kap, del, shift, sq; exact E).
    destruct (shape_facts i Sh) as (_ & _ & _ & _ & _ & A & B). apply lcfs_inv in E. destruct E as [_ ->]. cbn in *.
    repeat split; lra.
Qed.
Print Assumptions C32_lcfs_validation.

(** C37: n points, exactly closed, at equally spaced poloidal angles on the published curve. *)
Theorem C37_surface_points : forall i psi n, shape i -> (1 <= n)%nat ->
  exists s, flux_surface (Fausser i) psi n = Ok s /\ length (points s) = n /\ loop (points s) /\
    forall k, (k < n)%nat ->
      nth_error (points s) k = Some (fausser (r_0 i) (z_0 i) (r_0 i / aspect_ratio i) (kappa i) (delta i) (shafranov_shift i) psi (angle n k)).
Proof.
  intros i psi n H Hn. destruct (surface_ok (Fausser i) psi n H Hn) as [E L]. eexists. split; [exact E|]. cbn [points].
  split; [now rewrite map_length, seq_length|]. split; [exact L|]. intros k Hk.
  rewrite nth_error_map. rewrite (nth_error_nth' _ 0%nat) by (now rewrite seq_length). rewrite seq_nth by exact Hk.
  cbn [option_map plus pt_of]. rewrite fausser_eq by exact H. destruct (shape_facts i H) as (_ & _ & _ & _ & -> & _). reflexivity.
Qed.
Print Assumptions C37_surface_points.

Theorem C37_no_points_rejected : forall p psi, flux_surface p psi 0 = Err EIndex.
Proof. intros [i|i] psi; reflexivity. Qed.
Print Assumptions C37_no_points_rejected.

Theorem C37_axis_is_o_point : forall i n s rho m c, shape i -> flux_surface (Fausser i) 0 n = Ok s ->
  from_parameterisation (Fausser i) rho n c = Ok m ->
  forall p, In p (points s) -> p = (op_x (map_o_point m), op_z (map_o_point m)).
Proof.
  intros i n s rho m c H E Em p Hp. apply surface_inv in E; [|exact H]. destruct E as (_ & ->). cbn [points] in Hp.
  apply in_map_iff in Hp. destruct Hp as (k & <- & _). cbn [pt_of]. rewrite fausser_eq by exact H.
  unfold from_parameterisation in Em. destruct (flux_surface (Fausser i) 1.0 n); cbn [bind] in Em; try discriminate.
  destruct (make_param_interp _ _ _ _ _); cbn [bind] in Em; try discriminate. injection Em as <-. cbn [map_o_point op_x op_z info].
  unfold fausser. f_equal; ring.
Qed.
Print Assumptions C37_axis_is_o_point.

Theorem C37_bounds : forall i psi n s p, shape i -> 0 <= psi <= 1 -> flux_surface (Fausser i) psi n = Ok s -> In p (points s) ->
  0 < fst p /\ Rabs (fst p - (r_0 i + shafranov_shift i * (1 - psi ^ 2))) <= psi * minor_radius i /\
  Rabs (snd p - z_0 i) <= kappa i * minor_radius i * psi.
Proof.
  intros i psi n s p H Hp E Hin. apply surface_inv in E; [|exact H]. destruct E as (_ & ->). cbn [points] in Hin.
  apply in_map_iff in Hin. destruct Hin as (k & <- & _). cbn [pt_of]. rewrite fausser_eq by exact H.
  destruct (shape_facts i H) as (H1 & H2 & H3 & H4 & H5 & H6 & H7). unfold fausser; cbn [fst snd].
  set (t := angle n k). destruct (COS_bound (t + delta i * sin t)) as [C1 C2]. destruct (SIN_bound t) as [S1 S2].
  set (c := cos (t + delta i * sin t)) in *. set (v := sin t) in *. set (a := minor_radius i) in *.
  assert (0 <= psi * a) by (apply Rmult_le_pos; lra). assert (psi * a <= a) by nra.
  assert (- (psi * a) <= psi * a * c <= psi * a) by nra.
  assert (0 <= 1 - psi ^ 2) by nra. assert (0 <= shafranov_shift i * (1 - psi ^ 2)) by (apply Rmult_le_pos; lra).
  split; [lra|]. split.
  - apply Rabs_le. lra.
  - assert (0 <= kappa i * (psi * a)) by (apply Rmult_le_pos; lra). apply Rabs_le.
    replace (z_0 i + kappa i * (psi * a) * v - z_0 i) with (kappa i * (psi * a) * v) by ring.
    replace (kappa i * a * psi) with (kappa i * (psi * a)) by ring. nra.
Qed.
Print Assumptions C37_bounds.

(** The surface is up-down symmetric: read backwards it is its own mirror image. *)
Theorem C37_up_down_symmetric : forall i psi n s, shape i -> (2 <= n)%nat -> flux_surface (Fausser i) psi n = Ok s ->
  rev (points s) = map (mirror (z_0 i)) (points s).
Proof.
  intros i psi n s H Hn E. apply surface_inv in E; [|exact H]. destruct E as (_ & ->). cbn [points pt_of].
  rewrite map_map. apply rev_seq_map. intros k Hk. rewrite angle_rev by lia.
  rewrite !fausser_eq by exact H. apply fausser_mirror.
Qed.
Print Assumptions C37_up_down_symmetric.

(** C38 *)
Theorem C38_surface_points : forall i psi n, shape i -> (1 <= n)%nat ->
  exists s, flux_surface (Sauter i) psi n = Ok s /\ length (points s) = n /\ loop (points s) /\
    forall k, (k < n)%nat ->
      nth_error (points s) k = Some (sauter (r_0 i) (z_0 i) (r_0 i / aspect_ratio i) (kappa i) (delta i) (squareness i) psi (angle n k)).
Proof.
  intros i psi n H Hn. destruct (surface_ok (Sauter i) psi n H Hn) as [E L]. eexists. split; [exact E|]. cbn [points].
  split; [now rewrite map_length, seq_length|]. split; [exact L|]. intros k Hk.
  rewrite nth_error_map. rewrite (nth_error_nth' _ 0%nat) by (now rewrite seq_length). rewrite seq_nth by exact Hk.
  cbn [option_map plus pt_of]. rewrite sauter_eq. destruct (shape_facts i H) as (_ & _ & _ & _ & -> & _). reflexivity.
Qed.
Print Assumptions C38_surface_points.

Theorem C38_agrees_with_fausser : forall i psi n, shape i -> squareness i = 0 -> shafranov_shift i = 0 ->
  flux_surface (Sauter i) psi n = flux_surface (Fausser i) psi n.
Proof.
  intros i psi n H Q Sh. destruct n as [|n]; [reflexivity|].
  rewrite (proj1 (surface_ok (Sauter i) psi (S n) H ltac:(lia))), (proj1 (surface_ok (Fausser i) psi (S n) H ltac:(lia))).
  do 2 f_equal. apply map_ext. intro k. cbn [pt_of]. rewrite fausser_eq, sauter_eq by exact H. unfold sauter, fausser. rewrite Q, Sh.
  replace (angle (S n) k + 0 * sin (2 * angle (S n) k)) with (angle (S n) k) by ring. f_equal; ring.
Qed.
Print Assumptions C38_agrees_with_fausser.

(** "the surface psi_norm = 0 is the flux map's O-point" is false for Sauter surfaces: every non-zero shift
    refutes it (the shift is ignored by the surfaces but not by the O-point) ... *)
Theorem C38_axis_refuted_by_shift : forall i n s rho m c, shape i -> shafranov_shift i <> 0 -> flux_surface (Sauter i) 0 n = Ok s ->
  from_parameterisation (Sauter i) rho n c = Ok m ->
  exists p, In p (points s) /\ p <> (op_x (map_o_point m), op_z (map_o_point m)).
Proof.
  intros i n s rho m c H N E Em. apply surface_inv in E; [|exact H]. destruct E as (Hn & ->). cbn [points].
  unfold from_parameterisation in Em. destruct (flux_surface (Sauter i) 1.0 n); cbn [bind] in Em; try discriminate.
  destruct (make_param_interp _ _ _ _ _); cbn [bind] in Em; try discriminate. injection Em as <-. cbn [map_o_point op_x op_z info].
  exists (pt_of (Sauter i) 0 (angle n 0)). split; [apply in_map_iff; exists 0%nat; split; [reflexivity|apply in_seq; lia]|].
  cbn [pt_of]. rewrite sauter_eq, angle_0. unfold sauter. rewrite Rmult_0_r, !sin_0. intro Q. injection Q as Q _. lra.
Qed.
Print Assumptions C38_axis_refuted_by_shift.

(** ... and so does every non-zero squareness: the psi_norm = 0 "surface" is a horizontal line, not a point. *)
Theorem C38_axis_refuted_by_squareness : forall i n s, shape i -> squareness i <> 0 -> (6 <= n)%nat -> flux_surface (Sauter i) 0 n = Ok s ->
  (forall p, In p (points s) -> snd p = z_0 i) /\ exists p q, In p (points s) /\ In q (points s) /\ fst p <> fst q.
Proof.
  intros i n s H N Hn E. apply surface_inv in E; [|exact H]. destruct E as (_ & ->). cbn [points]. split.
  - intros p Hp. apply in_map_iff in Hp. destruct Hp as (k & <- & _). cbn [pt_of]. rewrite sauter_eq. unfold sauter; cbn [snd]. ring.
  - exists (pt_of (Sauter i) 0 (angle n 0)), (pt_of (Sauter i) 0 (angle n 1)).
    split; [apply in_map_iff; exists 0%nat; split; [reflexivity|apply in_seq; lia]|].
    split; [apply in_map_iff; exists 1%nat; split; [reflexivity|apply in_seq; lia]|].
    cbn [pt_of]. rewrite !sauter_eq, angle_0. unfold sauter; cbn [fst]. rewrite Rmult_0_r, !sin_0.
    assert (Sn : 0 < sin (2 * angle n 1)).
    { unfold angle. change (INR 1) with 1. assert (H3 : 5 <= INR (n - 1)) by (replace 5 with (INR 5) by (cbn; ring); apply le_INR; lia).
      set (d := INR (n - 1)) in *. pose proof PI_RGT_0.
      assert (Q : 0 < 2 * PI * 1 / d) by (apply Rdiv_lt_0_compat; lra).
      apply sin_gt_0; [lra|]. apply (Rmult_lt_reg_r d); [lra|]. replace (2 * (2 * PI * 1 / d) * d) with (4 * PI) by (field; lra). nra. }
    intro Q. apply N. apply (Rmult_eq_reg_r (sin (2 * angle n 1))); lra.
Qed.
Print Assumptions C38_axis_refuted_by_squareness.

(** C39: outboard (first point, angle 0) and inboard (angle pi, the middle point of an odd number) mid-plane radii. *)
Definition outboard (i : lcfs_info) (psi : R) : R := r_0 i + psi * minor_radius i + shafranov_shift i * (1 - psi ^ 2).
Definition inboard (i : lcfs_info) (psi : R) : R := r_0 i - psi * minor_radius i + shafranov_shift i * (1 - psi ^ 2).
Theorem C39_midplane_points : forall i psi m s, shape i -> flux_surface (Fausser i) psi (2 * m + 3) = Ok s ->
  nth_error (points s) 0 = Some (outboard i psi, z_0 i) /\ nth_error (points s) (m + 1) = Some (inboard i psi, z_0 i).
Proof.
  intros i psi m s H E. destruct (C37_surface_points i psi (2 * m + 3) H ltac:(lia)) as (s' & E' & _ & _ & P).
  assert (s' = s) by congruence. subst s'. destruct (shape_facts i H) as (_ & _ & _ & _ & Hm & _). rewrite <- Hm in P.
  rewrite !P by lia. rewrite angle_0. assert (A : angle (2 * m + 3) (m + 1) = PI).
  { unfold angle. replace (2 * m + 3 - 1)%nat with (2 * (m + 1))%nat by lia. rewrite mult_INR. replace (INR 2) with 2 by (cbn; ring).
    assert (0 < INR (m + 1)) by (apply lt_0_INR; lia). field. lra. }
  rewrite A. unfold fausser, outboard, inboard. rewrite sin_0, sin_PI.
  replace (PI + delta i * 0) with PI by ring. replace (0 + delta i * 0) with 0 by ring. rewrite cos_PI, cos_0.
  split; f_equal; f_equal; ring.
Qed.
Print Assumptions C39_midplane_points.

Theorem C39_nested : forall i p q, shape i -> shafranov_shift i <= minor_radius i / 2 -> 0 <= p < q -> q <= 1 ->
  outboard i p < outboard i q /\ inboard i q < inboard i p /\ outboard i q <= outboard i 1 /\ inboard i 1 <= inboard i q.
Proof.
  intros i p q H Hs Hp Hq. destruct (shape_facts i H) as (H1 & H2 & H3 & H4 & H5 & H6 & H7). unfold outboard, inboard.
  set (a := minor_radius i) in *. set (D := shafranov_shift i) in *.
  assert (E : forall x y, (y * a + D * (1 - y ^ 2)) - (x * a + D * (1 - x ^ 2)) = (y - x) * (a - D * (x + y))) by (intros; ring).
  assert (F : forall x y, (- (x * a) + D * (1 - x ^ 2)) - (- (y * a) + D * (1 - y ^ 2)) = (y - x) * (a + D * (x + y))) by (intros; ring).
  assert (G1 : 0 < (q - p) * (a - D * (p + q))).
  { apply Rmult_lt_0_compat; [lra|]. assert (D * (p + q) <= a / 2 * (p + q)) by (apply Rmult_le_compat_r; lra).
    assert (a / 2 * (p + q) < a) by nra. lra. }
  assert (G2 : 0 < (q - p) * (a + D * (p + q))).
  { apply Rmult_lt_0_compat; [lra|]. assert (0 <= D * (p + q)) by (apply Rmult_le_pos; lra). lra. }
  assert (G3 : 0 <= (1 - q) * (a - D * (q + 1))).
  { apply Rmult_le_pos; [lra|]. assert (D * (q + 1) <= a / 2 * (q + 1)) by (apply Rmult_le_compat_r; lra). nra. }
  assert (G4 : 0 <= (1 - q) * (a + D * (q + 1))).
  { apply Rmult_le_pos; [lra|]. assert (0 <= D * (q + 1)) by (apply Rmult_le_pos; lra). lra. }
  rewrite <- E in G1, G3. rewrite <- F in G2, G4. cbn [pow] in *. lra.
Qed.
Print Assumptions C39_nested.

(** Without triangularity the surfaces are ellipses, and each one lies inside every larger one. *)
Theorem C39_ellipses_nested : forall i p q n s c, shape i -> delta i = 0 -> shafranov_shift i <= minor_radius i / 2 -> 0 <= p < q -> q <= 1 ->
  flux_surface (Fausser i) p n = Ok s -> In c (points s) ->
  ((fst c - (r_0 i + shafranov_shift i * (1 - q ^ 2))) / minor_radius i) ^ 2 + ((snd c - z_0 i) / (kappa i * minor_radius i)) ^ 2 <= q ^ 2.
Proof.
  intros i p q n s c H Hd Hs Hp Hq E Hc. apply surface_inv in E; [|exact H]. destruct E as (_ & ->). cbn [points] in Hc.
  apply in_map_iff in Hc. destruct Hc as (k & <- & _). cbn [pt_of]. rewrite fausser_eq by exact H.
  destruct (shape_facts i H) as (H1 & H2 & H3 & H4 & H5 & H6 & H7). unfold fausser; cbn [fst snd]. rewrite Hd, Rmult_0_l, Rplus_0_r.
  set (a := minor_radius i) in *. set (D := shafranov_shift i) in *. set (t := angle n k).
  pose proof (sin2_cos2 t) as SC. unfold Rsqr in SC. destruct (COS_bound t) as [C1 C2]. set (co := cos t) in *. set (si := sin t) in *.
  replace ((r_0 i + p * a * co + D * (1 - p ^ 2) - (r_0 i + D * (1 - q ^ 2))) / a) with (p * co + D / a * (q ^ 2 - p ^ 2)) by (field; lra).
  replace ((z_0 i + kappa i * (p * a) * si - z_0 i) / (kappa i * a)) with (p * si) by (field; split; lra).
  set (e := D / a). assert (He : 0 <= e <= 1 / 2).
  { unfold e. split; [apply Rmult_le_pos; [lra|left; apply Rinv_0_lt_compat; lra]|].
    apply (Rmult_le_reg_r a); [lra|]. unfold Rdiv. rewrite Rmult_assoc, Rinv_l by lra. lra. }
  set (d := e * (q ^ 2 - p ^ 2)).
  assert (Hdd : 0 <= d <= q - p).
  { unfold d. split; [apply Rmult_le_pos; [lra|nra]|]. assert (e * (q ^ 2 - p ^ 2) <= 1 / 2 * (q ^ 2 - p ^ 2)) by (apply Rmult_le_compat_r; [nra|lra]). nra. }
  replace ((p * co + d) ^ 2 + (p * si) ^ 2) with (p ^ 2 * (si * si + co * co) + 2 * p * d * co + d ^ 2) by ring. rewrite SC.
  assert (Pd : 0 <= 2 * p * d) by (apply Rmult_le_pos; lra).
  assert (2 * p * d * co <= 2 * p * d * 1) by (apply Rmult_le_compat_l; lra).
  assert ((p + d) ^ 2 <= q ^ 2) by (apply pow_incr; lra). lra.
Qed.
Print Assumptions C39_ellipses_nested.

(** "every inner surface stays within the LCFS" is false for the accepted shifts above half the minor radius. *)
Theorem C39_large_shift_refuted : forall i, shape i -> minor_radius i / 2 < shafranov_shift i ->
  exists psi, 0 < psi < 1 /\ outboard i 1 < outboard i psi.
Proof.
  intros i H Hs. destruct (shape_facts i H) as (H1 & H2 & H3 & H4 & H5 & H6 & H7). unfold outboard.
  set (a := minor_radius i) in *. set (D := shafranov_shift i) in *. exists (a / (2 * D)).
  assert (P : a / (2 * D) * (2 * D) = a) by (field; lra). set (x := a / (2 * D)) in *.
  assert (0 < x) by (unfold x; apply Rdiv_lt_0_compat; lra). split; [split; [lra|nra]|].
  rewrite <- P. assert (x < 1) by nra. cbn [pow]. nra.
Qed.
Print Assumptions C39_large_shift_refuted.

(** C40 *)
Theorem C40_elementwise : forall psi axis bdry c, axis <> bdry -> normalise_psi psi axis bdry c = Ok (map (flux_label c axis bdry) psi).
Proof. intros. now apply normalise_ok. Qed.
Print Assumptions C40_elementwise.
Theorem C40_flat_flux_not_finite : forall p psi axis c, normalise_psi (p :: psi) axis axis c = NonFinite.
Proof. intros. apply normalise_bad. Qed.
Print Assumptions C40_flat_flux_not_finite.

(** Axis 0, boundary 1, never negative, increasing towards the boundary value and beyond, SQRT is the root of LINEAR. *)
Theorem C40_normalisation : forall axis bdry c, axis <> bdry ->
  normalise_psi [axis; bdry] axis bdry c = Ok [0; 1] /\
  (forall psi out x, normalise_psi psi axis bdry c = Ok out -> In x out -> 0 <= x) /\
  (forall p q x y, normalise_psi [p; q] axis bdry c = Ok [x; y] ->
     (axis < bdry /\ p <= q \/ bdry < axis /\ q <= p) -> x <= y) /\
  (forall psi lin rt, normalise_psi psi axis bdry LINEAR = Ok lin -> normalise_psi psi axis bdry SQRT = Ok rt ->
     lin = map (fun r => r ^ 2) rt).
Proof.
  intros axis bdry c H. rewrite normalise_ok by exact H. split; [|split; [|split]].
  - cbn [map]. unfold flux_label. replace ((axis - axis) / (bdry - axis)) with 0 by (field; lra).
    replace ((bdry - axis) / (bdry - axis)) with 1 by (field; lra). rewrite Rmax_left, Rmax_left by lra.
    destruct c; [reflexivity|]. now rewrite sqrt_0, sqrt_1.
  - intros psi out x E Hx. rewrite normalise_ok in E by exact H. injection E as <-. apply in_map_iff in Hx. destruct Hx as (p & <- & _).
    unfold flux_label. destruct c; [apply Rmax_r|apply sqrt_pos].
  - intros p q x y E Hpq. rewrite normalise_ok in E by exact H. injection E as <- <-.
    assert (L : (p - axis) / (bdry - axis) <= (q - axis) / (bdry - axis)).
    { destruct Hpq as [[A B]|[A B]].
      - apply Rmult_le_compat_r; [left; apply Rinv_0_lt_compat|]; lra.
      - assert (N : / (bdry - axis) < 0) by (apply Rinv_lt_0_compat; lra). unfold Rdiv. nra. }
    unfold flux_label. assert (M : Rmax ((p - axis) / (bdry - axis)) 0 <= Rmax ((q - axis) / (bdry - axis)) 0).
    { apply Rmax_lub; [eapply Rle_trans; [exact L|apply Rmax_l]|apply Rmax_r]. }
    destruct c; [exact M|]. now apply sqrt_le_1_alt.
  - intros psi lin rt E1 E2. rewrite normalise_ok in E1, E2 by exact H. injection E1 as <-. injection E2 as <-.
    rewrite map_map. apply map_ext. intro p. unfold flux_label. symmetry. apply pow2_sqrt, Rmax_r.
Qed.
Print Assumptions C40_normalisation.

Theorem C40_affine_invariant : forall psi axis bdry c k b, k <> 0 -> axis <> bdry ->
  normalise_psi (map (fun p => k * p + b) psi) (k * axis + b) (k * bdry + b) c = normalise_psi psi axis bdry c.
Proof.
  intros psi axis bdry c k b Hk H.
  assert (k * axis + b <> k * bdry + b). { assert (k * (axis - bdry) <> 0) by (apply Rmult_integral_contrapositive_currified; lra). lra. }
  rewrite !normalise_ok by assumption. rewrite map_map. f_equal. apply map_ext. intro p. now apply flux_label_affine.
Qed.
Print Assumptions C40_affine_invariant.

(** C41 *)
Fixpoint iter {A} (n : nat) (f : A -> A) (x : A) : A := match n with O => x | S m => iter m f (f x) end.
Theorem C41_sign_convention : forall e n c,
  psibdry (load_eqdsk e) <= psimag (load_eqdsk e) /\
  (psimag e <> psibdry e -> normalise_psi (eq_psi (load_eqdsk e)) (psimag (load_eqdsk e)) (psibdry (load_eqdsk e)) c
                            = normalise_psi (eq_psi e) (psimag e) (psibdry e) c) /\
  (eq_x (load_eqdsk e), eq_z (load_eqdsk e), xmag (load_eqdsk e), zmag (load_eqdsk e), bdry (load_eqdsk e))
   = (eq_x e, eq_z e, xmag e, zmag e, bdry e) /\
  length (eq_psi (load_eqdsk e)) = length (eq_psi e) /\
  iter (S n) load_eqdsk e = load_eqdsk e.
Proof.
  intros e n c.
  assert (Id : forall e, load_eqdsk (load_eqdsk e) = load_eqdsk e).
  { intro e'. unfold load_eqdsk. destruct (Rltb_spec (psimag e') (psibdry e')); cbn [psimag psibdry].
    - destruct (Rltb_spec 0.0 (psimag e' - psibdry e')); [lra|reflexivity].
    - destruct (Rltb_spec (psimag e') (psibdry e')); [lra|reflexivity]. }
  assert (It : iter (S n) load_eqdsk e = load_eqdsk e). { cbn [iter]. induction n as [|n IH]; [reflexivity|]. cbn [iter]. now rewrite Id. }
  repeat split; [| | | |exact It].
  - unfold load_eqdsk. destruct (Rltb_spec (psimag e) (psibdry e)); cbn [psimag psibdry]; lra.
  - intro H. unfold load_eqdsk. destruct (Rltb_spec (psimag e) (psibdry e)); cbn [psimag psibdry eq_psi]; [|reflexivity].
    rewrite !normalise_ok by lra. rewrite map_map. f_equal. apply map_ext. intro p. replace 0.0 with 0 by lra.
    rewrite <- (flux_label_affine c (-1) (psimag e) (psimag e) (psibdry e) p) by lra.
    unfold flux_label. replace ((psimag e - p - 0) / (psimag e - psibdry e - 0)) with
      ((-1 * p + psimag e - (-1 * psimag e + psimag e)) / (-1 * psibdry e + psimag e - (-1 * psimag e + psimag e))); [reflexivity|].
    field; lra.
  - unfold load_eqdsk. destruct (Rltb_spec (psimag e) (psibdry e)); reflexivity.
  - unfold load_eqdsk. destruct (Rltb_spec (psimag e) (psibdry e)); cbn [eq_psi]; [apply map_length|reflexivity].
Qed.
Print Assumptions C41_sign_convention.

(** Whatever sign, offset or factor (2 pi) the EQDSK convention uses, the flux map built from it is the same. *)
Theorem C41_any_cocos : forall spline e k b c, affine_spline spline -> eq_psi e <> [] -> k <> 0 -> psimag e <> psibdry e ->
  (forall m, from_eqdsk spline e c = Ok m -> exists m', from_eqdsk spline (recocos k b e) c = Ok m' /\ view m' = view m) /\
  (forall x, from_eqdsk spline e c = Err x -> from_eqdsk spline (recocos k b e) c = Err x).
Proof.
  intros spline e k b c Hs He Hk Hn. destruct (load_recocos k b e Hk Hn) as (k' & b' & Hk' & El).
  unfold from_eqdsk. cbv zeta. rewrite El. set (f := load_eqdsk e).
  assert (Hf : eq_psi f <> []). { unfold f, load_eqdsk. destruct (Rltb_spec (psimag e) (psibdry e)); [|exact He]. cbn [eq_psi]. destruct (eq_psi e); [congruence|discriminate]. }
  cbn [bdry recocos eq_x eq_z eq_psi psimag xmag zmag].
  destruct (closed_flux_surface (bdry f)) as [s|x|] eqn:Ec; cbn [bind]; [|split; [discriminate|auto]|split; discriminate].
  assert (Em : np_min (map (spline (eq_x f) (eq_z f) (map (fun p => k' * p + b') (eq_psi f))) (points s))
    = res_map (fun v => k' * v + b') (np_min (map (spline (eq_x f) (eq_z f) (eq_psi f)) (points s)))).
  { rewrite <- np_min_affine by exact Hk'. rewrite map_map. f_equal. apply map_ext. intro p. now apply Hs. }
  rewrite Em. destruct (np_min (map (spline (eq_x f) (eq_z f) (eq_psi f)) (points s))) as [B|x|] eqn:Eb; unfold res_map; cbn [bind]; [|split; [discriminate|auto]|split; discriminate].
  destruct (Req_dec (psimag f) B) as [Z|Z].
  - rewrite <- Z. destruct (eq_psi f) as [|p l].
    + congruence.
    + rewrite normalise_bad. cbn [bind]. split; discriminate.
  - assert (k' * psimag f + b' <> k' * B + b'). { assert (k' * (psimag f - B) <> 0) by (apply Rmult_integral_contrapositive_currified; lra). lra. }
    rewrite C40_affine_invariant by lra. rewrite normalise_ok by exact Z. cbn [bind]. split; [|discriminate].
    intros m E; injection E as <-. eexists. split; reflexivity.
Qed.
Print Assumptions C41_any_cocos.

(** C42 *)
Theorem C42_nodes_and_labels : forall p rho n c, shape (info p) -> (1 <= n)%nat -> (exists r, In r rho /\ 0 < r) ->
  let radii := filter (fun r => Rltb 0 r) rho in
  exists m it, from_parameterisation p rho n c = Ok m /\ map_interp m = IParam it /\
    flux_surface p 1.0 n = Ok (map_lcfs m) /\
    length (pi_nodes it) = S (length radii * n) /\ length (pi_psi_norm it) = S (length radii * n) /\
    nth_error (pi_nodes it) 0 = Some (op_x (map_o_point m), op_z (map_o_point m)) /\ nth_error (pi_psi_norm it) 0 = Some 0 /\
    forall j k r, nth_error radii j = Some r -> (k < n)%nat ->
      exists s node, flux_surface p r n = Ok s /\ nth_error (points s) k = Some node /\
        nth_error (pi_nodes it) (S (j * n + k)) = Some node /\
        nth_error (pi_psi_norm it) (S (j * n + k)) = Some (match c with LINEAR => r | SQRT => sqrt r end).
Proof.
  intros p rho n c H Hn (r0 & Hr0 & Hp0) radii.
  assert (Hr : positive rho <> []).
  { intro Q. assert (In r0 (positive rho)) by (apply filter_In; split; [exact Hr0|now apply Rltb_true]). rewrite Q in *. contradiction. }
  destruct (surface_ok p 1.0 n H Hn) as [El _].
  unfold from_parameterisation. rewrite El. cbn [bind]. rewrite make_interp_ok by assumption. cbn [bind].
  eexists _, _. split; [reflexivity|]. split; [reflexivity|]. split; [reflexivity|]. cbn [pi_nodes pi_psi_norm map_o_point map_interp].
  change radii with (positive rho).
  assert (L1 : forall b, In b (positive rho) -> length (surf_pts p n b) = n) by (intros; apply surf_pts_length).
  assert (L2 : forall b, In b (positive rho) -> length (repeat (1 - b) n) = n) by (intros; apply repeat_length).
  split; [cbn [length]; now rewrite (concat_len _ n _ L1)|].
  split; [cbn [map length]; now rewrite map_length, (concat_len _ n _ L2)|].
  split; [reflexivity|]. split.
  - cbn [map nth_error]. f_equal. unfold flux_label. replace ((1 - 1) / (0 - 1)) with 0 by field. rewrite Rmax_left by lra.
    destruct c; [reflexivity|apply sqrt_0].
  - intros j k r Hj Hk. destruct (surface_ok p r n H Hn) as [Es _].
    assert (Hin : In r (positive rho)) by (eapply nth_error_In; eauto).
    assert (Hrp : 0 < r) by (apply filter_In in Hin; apply Rltb_true; tauto).
    exists (SClosed (surf_pts p n r)), (pt_of p r (angle n k)). split; [exact Es|]. cbn [points].
    assert (Ek : nth_error (surf_pts p n r) k = Some (pt_of p r (angle n k))).
    { unfold surf_pts. rewrite nth_error_map, (nth_error_nth' _ 0%nat), seq_nth by (rewrite ?seq_length; lia). reflexivity. }
    split; [exact Ek|]. cbn [nth_error map]. split.
    + rewrite (concat_nth _ n _ L1 j k r Hj Hk). exact Ek.
    + rewrite nth_error_map, (concat_nth _ n _ L2 j k r Hj Hk).
      rewrite (nth_error_nth' _ (1 - r)) by (rewrite repeat_length; lia). rewrite nth_repeat. cbn [option_map]. f_equal.
      unfold flux_label. replace ((1 - r - 1) / (0 - 1)) with r by field. rewrite Rmax_left by lra. reflexivity.
Qed.
Print Assumptions C42_nodes_and_labels.

Theorem C42_no_positive_radius_rejected : forall p rho n c, shape (info p) -> (1 <= n)%nat -> (forall r, In r rho -> r <= 0) ->
  from_parameterisation p rho n c = Err EValue.
Proof.
  intros p rho n c H Hn Hr. unfold from_parameterisation. rewrite (proj1 (surface_ok p 1.0 n H Hn)). cbn [bind].
  unfold make_param_interp. assert (Q : filter (fun r => Rltb 0 r) rho = []).
  { clear - Hr. induction rho as [|r l IH]; [reflexivity|]. cbn [filter]. pose proof (Hr r (or_introl eq_refl)).
    destruct (Rltb_spec 0 r); [lra|]. apply IH. intros; apply Hr; now right. }
  rewrite Q. reflexivity.
Qed.
Print Assumptions C42_no_positive_radius_rejected.

(** LINEAR: asking for the surface of a label gives back the nodes with that label. *)
Theorem C42_get_surface_linear : forall contours p rho n m it r, from_parameterisation p rho n LINEAR = Ok m -> map_interp m = IParam it ->
  get_flux_surface contours m r None = flux_surface p r n /\ forall k, get_flux_surface contours m r (Some k) = flux_surface p r k.
Proof.
  intros contours p rho n m it r E Ei. unfold from_parameterisation in E.
  destruct (flux_surface p 1.0 n); cbn [bind] in E; try discriminate.
  destruct (make_param_interp p _ rho n LINEAR) as [it'| |] eqn:Em; cbn [bind] in E; try discriminate.
  injection E as <-. cbn in Ei. injection Ei as ->.
  assert (Hp : pi_param it = p /\ pi_n_points it = n).
  { unfold make_param_interp in Em. destruct (flux_surfaces _ _ _) as [[|s fs]| |]; cbn [bind] in Em; try discriminate.
    destruct (normalise_psi _ _ _ _); cbn [bind] in Em; try discriminate. injection Em as <-. auto. }
  destruct Hp as [Hp1 Hp2]. unfold get_flux_surface. cbn [map_interp interp_get_flux_surface].
  unfold param_get_flux_surface. rewrite Hp1, Hp2. auto.
Qed.
Print Assumptions C42_get_surface_linear.

(** SQRT: "get_flux_surface(l) returns the surface labelled l" is false: for circular surfaces without shift, a node
    of the radius r, labelled sqrt r, is nowhere on get_flux_surface(sqrt r). *)
Theorem C42_sqrt_label_refuted : forall contours i rho n m r s, shape i -> shafranov_shift i = 0 -> delta i = 0 -> kappa i = 1 ->
  from_parameterisation (Fausser i) rho n SQRT = Ok m -> 0 < r < 1 -> In r rho ->
  get_flux_surface contours m (sqrt r) None = Ok s ->
  exists it k node, map_interp m = IParam it /\ nth_error (pi_nodes it) k = Some node /\ nth_error (pi_psi_norm it) k = Some (sqrt r) /\
    ~ In node (points s).
Proof.
  intros contours i rho n m r s H Sh D K Em Hr Hin Es.
  assert (Hn : (1 <= n)%nat). { destruct n; [discriminate Em|lia]. }
  destruct (C42_nodes_and_labels (Fausser i) rho n SQRT H Hn) as (m' & it & Em' & Ei & _ & _ & _ & _ & _ & P); [exists r; split; [exact Hin|lra]|].
  assert (m' = m) by congruence. subst m'.
  assert (In r (filter (fun r => Rltb 0 r) rho)) as Hf by (apply filter_In; split; [exact Hin|apply Rltb_true; lra]).
  apply In_nth_error in Hf. destruct Hf as [j Hj].
  destruct (P j 0%nat r Hj ltac:(lia)) as (s1 & node & E1 & N1 & N2 & N3).
  exists it, (S (j * n + 0))%nat, node. repeat (split; [assumption|]). intro Hp.
  assert (Hp2 : pi_param it = Fausser i /\ pi_n_points it = n).
  { unfold from_parameterisation in Em. destruct (flux_surface (Fausser i) 1.0 n); cbn [bind] in Em; try discriminate.
    rewrite make_interp_ok in Em; [|exact H|exact Hn|].
    - cbn [bind] in Em. injection Em as <-. cbn in Ei. injection Ei as <-. auto.
    - intro Q. assert (In r (positive rho)) by (apply filter_In; split; [exact Hin|apply Rltb_true; lra]). rewrite Q in *. contradiction. }
  unfold get_flux_surface in Es. rewrite Ei in Es. cbn [interp_get_flux_surface] in Es. unfold param_get_flux_surface in Es.
  destruct Hp2 as [Hp2 Hp3]. rewrite Hp2, Hp3 in Es.
  assert (Dist : forall psi s0 q, flux_surface (Fausser i) psi n = Ok s0 -> In q (points s0) ->
    (fst q - r_0 i) ^ 2 + (snd q - z_0 i) ^ 2 = (psi * minor_radius i) ^ 2).
  { intros psi s0 q E0 Hq. apply surface_inv in E0; [|exact H]. destruct E0 as (_ & ->). cbn [points] in Hq.
    apply in_map_iff in Hq. destruct Hq as (k & <- & _). cbn [pt_of]. rewrite fausser_eq by exact H. unfold fausser; cbn [fst snd].
    rewrite Sh, D, K. replace (angle n k + 0 * sin (angle n k)) with (angle n k) by ring. pose proof (sin2_cos2 (angle n k)) as SC. unfold Rsqr in SC.
    transitivity ((psi * minor_radius i) ^ 2 * (sin (angle n k) * sin (angle n k) + cos (angle n k) * cos (angle n k))); [ring|]. rewrite SC. ring. }
  pose proof (Dist _ _ _ Es Hp) as D1. pose proof (Dist _ _ _ E1 (nth_error_In _ _ N1)) as D2.
  destruct (shape_facts i H) as (_ & _ & _ & _ & _ & Ha & _).
  rewrite D1 in D2. rewrite !Rpow_mult_distr, pow2_sqrt in D2 by lra.
  assert (0 < minor_radius i ^ 2) by nra. assert (r = r ^ 2) by (apply (Rmult_eq_reg_r (minor_radius i ^ 2)); lra). nra.
Qed.
Print Assumptions C42_sqrt_label_refuted.

(** C43 *)
Theorem C43_axis_and_clamping : forall contours it psi n, let contours_at := grid_get_flux_surface contours it in
  contours_at psi n = contours_at (clip 0 1 psi) n /\
  (psi <= 0 -> contours_at psi n = Ok (SRing (op_x (gi_o_point it), op_z (gi_o_point it)))).
Proof.
  intros contours it psi n. cbv zeta. unfold grid_get_flux_surface. rewrite clip_clip by lra. split; [reflexivity|].
  intro H. rewrite clip_low, Reqb_refl by lra. reflexivity.
Qed.
Print Assumptions C43_axis_and_clamping.

(** The chosen contour: its mean point is nearest to the O-point (the first such); errors exactly as stated. *)
Theorem C43_nearest_contour : forall contours it psi, 0 < psi ->
  let surfs := contours (gi_x it) (gi_z it) (gi_psi_norm it) (clip 0 1 psi) in
  let o := (op_x (gi_o_point it), op_z (gi_o_point it)) in
  (forall g, In g surfs -> g <> []) ->
  (surfs = [] -> grid_get_flux_surface contours it psi None = Err EFluxSurface) /\
  (surfs <> [] -> exists i g, nth_error surfs i = Some g /\
     (forall j g', nth_error surfs j = Some g' -> sqdist (mean_point g) o <= sqdist (mean_point g') o /\
        ((j < i)%nat -> sqdist (mean_point g) o < sqdist (mean_point g') o)) /\
     grid_get_flux_surface contours it psi None = closed_flux_surface g /\
     forall n, grid_get_flux_surface contours it psi (Some n) = bind (interpolate_flux_surface g n) closed_flux_surface).
Proof.
  intros contours it psi Hpsi surfs o Hg.
  assert (Z : Reqb (clip 0 1 psi) 0 = false).
  { apply Reqb_false. unfold clip. rewrite Rmax_left by lra. unfold Rmin. destruct (Rle_dec psi 1); lra. }
  unfold grid_get_flux_surface. rewrite Z. fold surfs. split.
  - intros ->. reflexivity.
  - intro Hs. unfold find_flux_surf. destruct surfs as [|g0 l] eqn:Q; [congruence|]. rewrite <- Q in *.
    rewrite (mapM_pure _ (fun g => sqdist (mean_point g) o)) by (intros g Hi; apply f_min_ok; now apply Hg). cbn [bind].
    destruct (argmin (map (fun g => sqdist (mean_point g) o) surfs)) as [i| |] eqn:A.
    + apply argmin_spec in A. destruct A as (e & He & Hmin). rewrite nth_error_map in He.
      cbn [bind]. destruct (nth_error surfs i) as [g|] eqn:Ei; [|discriminate]. cbn in He. injection He as <-.
      exists i, g. split; [exact Ei|]. split; [|split; reflexivity].
      intros j g' Hj. apply (Hmin j). now rewrite nth_error_map, Hj.
    + rewrite Q in A. discriminate.
    + rewrite Q in A. discriminate.
Qed.
Print Assumptions C43_nearest_contour.

(** Several fluxes at once, and enclosed volumes, are the single ones, one by one. *)
Theorem C43_lists_and_volume : forall contours m psis n,
  (forall ss, get_flux_surfaces contours m psis n = Ok ss <-> Forall2 (fun p s => get_flux_surface contours m p n = Ok s) psis ss) /\
  (forall psi v, map_volume contours m psi = Ok v <-> exists s, get_flux_surface contours m psi None = Ok s /\ volume s = Ok v) /\
  (forall vs, map_volumes contours m psis = Ok vs <-> Forall2 (fun p v => map_volume contours m p = Ok v) psis vs).
Proof.
  intros contours m psis n.
  assert (B : forall {A B} (x : res A) (f : A -> res B) b, bind x f = Ok b <-> exists a, x = Ok a /\ f a = Ok b).
  { intros A B x f b. destruct x; cbn [bind]; split; intro H; try discriminate; try (destruct H as (a' & H & _); discriminate); eauto.
    destruct H as (a' & H & G). congruence. }
  split; [|split].
  - intro ss. apply mapM_Ok_Forall2.
  - intros psi v. apply B.
  - intro vs. unfold map_volumes. rewrite B. split.
    + intros (fs & H1 & H2). apply mapM_Ok_Forall2 in H1, H2. revert vs H2. induction H1 as [|p s psis fs Hp _ IH]; intros vs H2; inversion H2; subst; constructor; [|now apply IH].
      apply B. eauto.
    + intro H. induction H as [|p v psis vs Hp _ IH]; [exists []; split; reflexivity|].
      destruct IH as (fs & H1 & H2). apply B in Hp. destruct Hp as (s & E1 & E2). exists (s :: fs).
      apply mapM_Ok_Forall2 in H1, H2. split; apply mapM_Ok_Forall2; constructor; assumption.
Qed.
Print Assumptions C43_lists_and_volume.

Lemma choose_list {A} (P : nat -> A -> Prop) n : (forall k, (k < n)%nat -> exists q, P k q) ->
  exists qs, length qs = n /\ forall k, (k < n)%nat -> exists q, nth_error qs k = Some q /\ P k q.
Proof.
  induction n as [|n IH]; intro W; [exists []; split; [reflexivity|lia]|].
  destruct IH as (qs & E & H); [intros; apply W; lia|]. destruct (W n) as (q & Hq); [lia|].
  exists (qs ++ [q]). split; [rewrite app_length; cbn; lia|]. intros k Hk. destruct (Nat.eq_dec k n) as [->|N].
  - exists q. split; [|exact Hq]. rewrite nth_error_app2 by lia. now rewrite E, Nat.sub_diag.
  - destruct (H k) as (q' & H1 & H2); [lia|]. exists q'. split; [|exact H2]. now rewrite nth_error_app1 by lia.
Qed.
(** C44: n points equally spaced along the polyline, from its first point, and closed. *)
Theorem C44_equally_spaced : forall p r n, (1 <= n)%nat ->
  let l := p :: r in
  exists out, interpolate_flux_surface l n = Ok out /\ length out = S n /\ loop out /\ nth_error out 0 = Some p /\
    forall k, (k < n)%nat -> exists q, nth_error out k = Some q /\ walk l (INR k * (path_length l / INR n)) q.
Proof.
  intros p r n Hn l. set (L := path_length l). assert (Hn0 : 0 < INR n) by (apply lt_0_INR; lia).
  pose proof (path_length_nonneg l) as HL. fold L in HL.
  assert (Hk : forall k, (k < n)%nat -> 0 <= INR k * (L / INR n) <= L).
  { intros k Hk. pose proof (pos_INR k). assert (INR k <= INR n) by (apply le_INR; lia).
    assert (0 <= L / INR n) by (apply Rmult_le_pos; [lra|left; now apply Rinv_0_lt_compat]).
    split; [now apply Rmult_le_pos|]. apply Rle_trans with (INR n * (L / INR n)); [now apply Rmult_le_compat_r|].
    right; field; lra. }
  assert (W : forall k, (k < n)%nat -> exists q, walk l (INR k * (L / INR n)) q /\
     forall f : R * R -> R, (f = fst \/ f = snd) ->
       interp1d_call (sort_pairs (combine (0 :: cumsum 0 (seg_lengths l)) (map f l))) (0 + INR k * ((L - 0) / INR n)) = Ok (f q)).
  { intros k Hkn. destruct (interp_walk r 0 p (INR k * (L / INR n))) as (q & W & F).
    - fold l L. specialize (Hk k Hkn). lra.
    - exists q. rewrite Rminus_0_r in W. split; [exact W|]. intros f Hf.
      rewrite sort_pairs_id_le by apply table_sorted. unfold l. cbn [combine map interp1d_call].
      rewrite Rplus_0_l, Rminus_0_r. specialize (Hk k Hkn).
      destruct (Rltb_spec (INR k * (L / INR n)) 0); [lra|].
      rewrite last_x_combine by (now rewrite map_length, cumsum_length, seg_length).
      pose proof (last_cumsum 0 p r) as LC. rewrite last_cons in LC. fold l in LC |- *. fold L in LC. rewrite LC.
      destruct (Rltb_spec (0 + L) (INR k * (L / INR n))); [lra|]. f_equal. exact (F f Hf). }
  assert (Qs : exists qs, length qs = n /\ forall k, (k < n)%nat -> exists q, nth_error qs k = Some q /\ walk l (INR k * (L / INR n)) q /\
     forall f : R * R -> R, (f = fst \/ f = snd) ->
       interp1d_call (sort_pairs (combine (0 :: cumsum 0 (seg_lengths l)) (map f l))) (0 + INR k * ((L - 0) / INR n)) = Ok (f q)).
  { apply choose_list. exact W. }
  destruct Qs as (qs & Lq & Q).
  assert (M : forall f : R * R -> R, (f = fst \/ f = snd) ->
     mapM (interp1d_call (sort_pairs (combine (0 :: cumsum 0 (seg_lengths l)) (map f l)))) (linspace_open 0 L n) = Ok (map f qs)).
  { intros f Hf. apply mapM_Ok_Forall2. unfold linspace_open.
    assert (G : forall m a (qs' : list (R * R)), length qs' = m -> (forall k, (k < m)%nat -> nth_error qs' k = nth_error qs (a + k)) -> (a + m <= n)%nat ->
      Forall2 (fun v b => interp1d_call (sort_pairs (combine (0 :: cumsum 0 (seg_lengths l)) (map f l))) v = Ok b)
        (map (fun i => 0 + INR i * ((L - 0) / INR n)) (seq a m)) (map f qs')).
    { induction m as [|m IH]; intros a [|q qs'] E H Ha; try discriminate; [constructor|]. cbn [seq map]. constructor.
      - destruct (Q a) as (q' & H1 & _ & H2); [lia|]. specialize (H 0%nat ltac:(lia)). cbn [nth_error] in H. rewrite Nat.add_0_r, H1 in H.
        injection H as ->. now apply H2.
      - apply IH; [cbn in E; lia| |lia]. intros k Hk'. specialize (H (S k) ltac:(lia)). cbn [nth_error] in H. rewrite H. f_equal. lia. }
    apply G; [exact Lq|reflexivity|lia]. }
  assert (H0 : exists q0 qs', qs = q0 :: qs' /\ walk l 0 q0).
  { destruct (Q 0%nat) as (q0 & H1 & H2 & _); [lia|]. destruct qs as [|q1 qs']; [discriminate|]. cbn in H1. injection H1 as ->.
    exists q0, qs'. split; [reflexivity|]. change (INR 0) with 0 in H2. rewrite Rmult_0_l in H2. exact H2. }
  destruct H0 as (q0 & qs' & Eq & W0). destruct (walk_0 _ _ W0) as (l' & El). unfold l in El. injection El as Ep _. subst q0.
  exists (qs ++ [p]). split; [|split; [|split; [|split]]].
  - unfold interpolate_flux_surface.
    assert (Hlen : length (0 :: cumsum 0 (seg_lengths l)) = length l) by (unfold l; cbn [length]; now rewrite cumsum_length, seg_length).
    rewrite Hlen, Nat.eqb_refl. cbn [negb]. cbv zeta. pose proof (last_cumsum 0 p r) as LC. fold l L in LC. rewrite Rplus_0_l in LC. rewrite LC.
    rewrite !M by auto. cbn [bind]. rewrite Eq. cbn [map]. f_equal.
    change (fst p :: map fst qs') with (map fst (p :: qs')). change (snd p :: map snd qs') with (map snd (p :: qs')).
    rewrite <- !Eq. change [fst p] with (map fst [p]). change [snd p] with (map snd [p]). rewrite <- !map_app.
    clear. induction (qs ++ [p]) as [|[x z] t IH]; [reflexivity|]. cbn [map combine]. now rewrite IH.
  - rewrite app_length, Lq. cbn. lia.
  - rewrite Eq. exists p, (qs' ++ [p]). split; [reflexivity|]. now rewrite last_last.
  - rewrite Eq. reflexivity.
  - intros k Hk'. destruct (Q k Hk') as (q & H1 & H2 & _). exists q. split; [|exact H2]. now rewrite nth_error_app1 by lia.
Qed.
Print Assumptions C44_equally_spaced.

Theorem C44_rejected : forall p r n, interpolate_flux_surface (p :: r) 0 = Err EIndex /\ interpolate_flux_surface [] n = Err EValue.
Proof.
  intros p r n. split; [|reflexivity]. unfold interpolate_flux_surface. cbn [length].
  rewrite cumsum_length, seg_length, Nat.eqb_refl. reflexivity.
Qed.
Print Assumptions C44_rejected.

(** The hypotheses are met: an ITER-like shape, a flux map built from it, and an L-shaped contour. *)
Example shape_example : exists i, make_lcfs_info 3 0 3 2 (1/2) (-1/4) 0 = Ok i /\ shape i /\ minor_radius i = 1 /\
  shafranov_shift i = 1/4 /\ shafranov_shift i <= minor_radius i / 2.
Proof.
  eexists. split; [apply lcfs_ok; unfold sensible; rewrite Rabs_left by lra; lra|]. cbn. rewrite Rabs_left by lra.
  split; [|lra]. exists 3, 0, 3, 2, (1/2), (-1/4), 0. rewrite lcfs_ok by (unfold sensible; rewrite Rabs_left by lra; lra).
  now rewrite Rabs_left by lra.
Qed.
Example large_shift_example : exists i, make_lcfs_info 3 0 3 2 (1/2) (3/4) 0 = Ok i /\ minor_radius i / 2 < shafranov_shift i.
Proof. eexists. split; [apply lcfs_ok; unfold sensible; rewrite Rabs_right by lra; lra|]. cbn. rewrite Rabs_right by lra. lra. Qed.
Example map_example : exists i m, make_lcfs_info 3 0 3 1 0 0 0 = Ok i /\ from_parameterisation (Fausser i) [0; 1/4; 1] 8 SQRT = Ok m /\
  shafranov_shift i = 0 /\ delta i = 0 /\ kappa i = 1 /\ forall contours, exists s, get_flux_surface contours m (sqrt (1/4)) None = Ok s.
Proof.
  assert (Hs : sensible 3 3 1 0 0) by (unfold sensible; rewrite Rabs_R0; lra).
  eexists. pose proof (lcfs_ok 3 0 3 1 0 0 0 Hs) as E. set (i := {| r_0 := 3 |}) in E.
  assert (Sh : shape i) by (exists 3, 0, 3, 1, 0, 0, 0; exact E).
  destruct (C42_nodes_and_labels (Fausser i) [0; 1/4; 1] 8 SQRT Sh ltac:(lia)) as (m & it & Em & Ei & _); [exists 1; cbn; split; [auto|lra]|].
  exists m. split; [exact E|]. split; [exact Em|]. repeat split; [apply Rabs_R0|]. intro contours.
  unfold get_flux_surface. rewrite Ei. cbn [interp_get_flux_surface]. unfold param_get_flux_surface.
  unfold from_parameterisation in Em. rewrite (proj1 (surface_ok (Fausser i) 1.0 8 Sh ltac:(lia))) in Em. cbn [bind] in Em.
  rewrite make_interp_ok in Em; [|exact Sh|lia|].
  - cbn [bind] in Em. injection Em as <-. cbn in Ei. injection Ei as <-. eexists. apply (proj1 (surface_ok (Fausser i) _ 8 Sh ltac:(lia))).
  - unfold positive. cbn [filter]. destruct (Rltb_spec 0 0); [lra|]. destruct (Rltb_spec 0 (1/4)); [discriminate|lra].
Qed.
Example contour_example : exists out, interpolate_flux_surface [(0, 0); (3, 0); (3, 4)] 7 = Ok out /\ length out = 8%nat /\
  walk [(0, 0); (3, 0); (3, 4)] 5 (3, 2).
Proof.
  destruct (C44_equally_spaced (0, 0) [(3, 0); (3, 4)] 7 ltac:(lia)) as (out & E & L & _). exists out. split; [exact E|]. split; [exact L|].
  assert (D1 : distance (0, 0) (3, 0) = 3). { unfold distance; cbn [fst snd]. replace ((3 - 0) ^ 2 + (0 - 0) ^ 2) with (3 * 3) by ring. apply sqrt_square; lra. }
  assert (D2 : distance (3, 0) (3, 4) = 4). { unfold distance; cbn [fst snd]. replace ((3 - 3) ^ 2 + (4 - 0) ^ 2) with (4 * 4) by ring. apply sqrt_square; lra. }
  apply walk_on; rewrite D1; [lra|]. replace (5 - 3) with 2 by lra.
  pose proof (walk_here (3, 0) (3, 4) [] 2) as W. rewrite D2 in W. cbn [fst snd] in W.
  replace (3 + 2 / 4 * (3 - 3)) with 3 in W by lra. replace (0 + 2 / 4 * (4 - 0)) with 2 in W by lra. apply W. lra.
Qed.
Lemma closed_of_loop l : loop l -> closed_flux_surface l = Ok (SClosed l).
Proof.
  intros (p & r & -> & Lr). unfold closed_flux_surface, is_closed. cbn [bind]. rewrite Lr. unfold isclose.
  rewrite !Rminus_diag_eq by reflexivity. rewrite Rabs_R0. destruct (Rleb_spec 0 1e-12); [reflexivity|lra].
Qed.
Example eqdsk_example : exists e spline m, eq_psi e <> [] /\ psimag e <> psibdry e /\ affine_spline spline /\ from_eqdsk spline e LINEAR = Ok m.
Proof.
  (* the "spline" reproduces the first value *)
  exists {| eq_x := [1; 2]; eq_z := [0]; eq_psi := [3; 5]; psimag := 5; psibdry := 2; xmag := 1; zmag := 0; bdry := [(1, 0); (2, 0); (2, 1); (1, 0)] |}.
  exists (fun _ _ psi _ => match psi with [] => 0 | p :: _ => p end). eexists. split; [discriminate|]. split; [cbn; lra|].
  split; [intros xs zs [|v psi] k b p H; [congruence|reflexivity]|].
  unfold from_eqdsk, load_eqdsk. cbn [psimag psibdry bdry eq_x eq_z eq_psi xmag zmag]. destruct (Rltb_spec 5 2); [lra|].
  cbn [psimag psibdry bdry eq_x eq_z eq_psi xmag zmag].
  rewrite closed_of_loop by (exists (1, 0), [(2, 0); (2, 1); (1, 0)]; split; reflexivity). cbn [bind points map np_min fold_left].
  rewrite (Rmin_left 3 3), (Rmin_left 3 3), (Rmin_left 3 3) by lra. cbn [bind]. rewrite normalise_ok by lra. cbn [bind]. reflexivity.
Qed.
