(** Convexity of the sampled D-shaped surfaces: lemmas for C69-C73. *)
From Coq Require Import Reals Lra Lia List Psatz.
From Verif Require Import Base Geometry SpecGeometry GeometryProofs Flux SpecFlux FluxProofs Space SpaceProofs SpecConvex ConvexProofs DShape.
Open Scope R_scope.

(** The k-th of m equally spaced points of the curve. *)
Definition dpt (d : R) (m k : nat) : R * R := dcurve d (2 * PI * INR k / INR m).
Definition dpoly (d : R) (m : nat) : list (R * R) := map (dpt d m) (seq 0 (S m)).

Section Poly.
  Variable d : R.
  Variable m : nat.
  Hypothesis Hd : -1 <= d <= 1.
  Hypothesis Hm : (3 <= m)%nat.

  Lemma Mpos : 0 < INR m. Proof. apply lt_0_INR. lia. Qed.
  Lemma ang_0 : 2 * PI * INR 0 / INR m = 0. Proof. cbn [INR]. unfold Rdiv. ring. Qed.
  Lemma ang_nonneg k : 0 <= 2 * PI * INR k / INR m.
  Proof. pose proof PI_RGT_0. pose proof (pos_INR k). pose proof Mpos. apply Rmult_le_pos; [nra|]. left. now apply Rinv_0_lt_compat. Qed.
  Lemma ang_incr i j : (i < j)%nat -> 2 * PI * INR i / INR m < 2 * PI * INR j / INR m.
  Proof.
    intro H. apply lt_INR in H. pose proof PI_RGT_0. apply Rmult_lt_compat_r; [apply Rinv_0_lt_compat, Mpos|]. nra.
  Qed.
  Lemma ang_full : 2 * PI * INR m / INR m = 2 * PI. Proof. pose proof Mpos. field. lra. Qed.
  Lemma ang_lt k : (k < m)%nat -> 2 * PI * INR k / INR m < 2 * PI.
  Proof. intro H. rewrite <- ang_full at 2. now apply ang_incr. Qed.

  Lemma dpt_0 : dpt d m 0 = (1, 0).
  Proof. unfold dpt, dcurve. rewrite ang_0, sin_0. replace (0 + d * 0) with 0 by ring. now rewrite cos_0. Qed.
  Lemma dpt_m : dpt d m m = dpt d m 0.
  Proof. unfold dpt. rewrite ang_full, ang_0. rewrite <- (dcurve_period d (2 * PI)). f_equal. ring. Qed.
  Lemma dpt_turn i j k : (i < j)%nat -> (j < k)%nat -> (k < m)%nat -> 0 < turn (dpt d m i) (dpt d m j) (dpt d m k).
  Proof.
    intros Hi Hj Hk. apply dcurve_turn; [exact Hd|apply ang_nonneg|now apply ang_incr|now apply ang_incr|now apply ang_lt].
  Qed.
  Lemma dpoly_convex : convex_polygon (dpoly d m).
  Proof. apply convex_of_points; [exact Hm|exact dpt_m|exact dpt_turn]. Qed.
  (** Every point but the two ends lies strictly left of an edge. *)
  Lemma dpt_edge k j : (k < m)%nat -> (j < m)%nat -> j <> k -> (S k < m -> j <> S k)%nat -> (S k = m -> j <> 0)%nat ->
    0 < turn (dpt d m k) (dpt d m (S k)) (dpt d m j).
  Proof.
    intros Hk Hj N1 N2 N3. destruct (Nat.eq_dec (S k) m) as [E|E].
    - rewrite E, dpt_m. rewrite turn_cyclic. apply dpt_turn; [specialize (N3 E); lia|lia|lia].
    - assert (S k < m)%nat by lia. destruct (Nat.lt_ge_cases j k).
      + rewrite turn_cyclic, turn_cyclic. apply dpt_turn; lia.
      + apply dpt_turn; lia.
  Qed.
  Lemma dpt_edge_le k j : (k < m)%nat -> (j < m)%nat -> 0 <= turn (dpt d m k) (dpt d m (S k)) (dpt d m j).
  Proof.
    intros Hk Hj. destruct (Nat.eq_dec j k) as [->|N1]; [unfold turn; lra|].
    destruct (Nat.eq_dec j (S k)) as [->|N2]; [unfold turn; lra|].
    destruct (Nat.eq_dec (S k) m) as [E|E]; [destruct (Nat.eq_dec j 0) as [->|N3]|].
    - rewrite E, dpt_m. unfold turn; lra.
    - left. apply dpt_edge; auto.
    - left. apply dpt_edge; auto; lia.
  Qed.
  Lemma dpoly_edge a b : edge (dpoly d m) a b -> exists k, (k < m)%nat /\ a = dpt d m k /\ b = dpt d m (S k).
  Proof. intro E. apply edge_map_seq in E. destruct E as (k & H & -> & ->). exists k. split; [lia|auto]. Qed.
  Lemma dpt_in k : (k <= m)%nat -> In (dpt d m k) (dpoly d m).
  Proof. intro H. apply map_seq_in. lia. Qed.

  (** The point opposite to the first one: half way round. *)
  Definition hw : nat := (m / 2)%nat.
  Lemma hw_spec : (2 * hw <= m /\ m <= 2 * hw + 1)%nat.
  Proof. unfold hw. pose proof (Nat.div_mod m 2). pose proof (Nat.mod_upper_bound m 2). lia. Qed.
  Lemma dpt_hw_mirror k : (k <= m)%nat -> dpt d m (m - k) = (fst (dpt d m k), - snd (dpt d m k)).
  Proof.
    intro H. unfold dpt, dcurve; cbn [fst snd]. rewrite minus_INR by exact H. pose proof Mpos.
    replace (2 * PI * (INR m - INR k) / INR m) with (2 * PI - 2 * PI * INR k / INR m) by (field; lra).
    set (t := 2 * PI * INR k / INR m). rewrite sin_2kPI_minus.
    replace (2 * PI - t + d * - sin t) with (2 * PI - (t + d * sin t)) by ring. now rewrite cos_2kPI_minus.
  Qed.
  Hypothesis Hm4 : (4 <= m)%nat.
  Lemma hw_x : fst (dpt d m hw) < 0.
  Proof.
    pose proof hw_spec as [H1 H2]. pose proof Mpos. pose proof PI_RGT_0. pose proof PI2_3_2. pose proof PI_4.
    unfold dpt, dcurve; cbn [fst]. set (t := 2 * PI * INR hw / INR m).
    (* t = pi - b with 0 <= b <= pi / 5 *)
    set (b := PI - t). assert (Et : t = PI - b) by (unfold b; ring).
    assert (Hb : 0 <= b <= PI / 5).
    { assert (Eb : b * INR m = PI * (INR m - 2 * INR hw)) by (unfold b, t; field; lra).
      apply le_INR in H1, H2. rewrite mult_INR in H1. rewrite plus_INR, mult_INR in H2. change (INR 2) with 2 in *. change (INR 1) with 1 in *.
      destruct (Nat.eq_dec m (2 * hw)) as [E|E].
      - assert (INR m = 2 * INR hw) by (rewrite E at 1; rewrite mult_INR; reflexivity). assert (b * INR m = 0) by (rewrite Eb; nra).
        assert (b = 0) by nra. lra.
      - assert (5 <= m)%nat by (pose proof hw_spec; lia). assert (5 <= INR m) by (replace 5 with (INR 5) by (cbn; ring); now apply le_INR).
        assert (INR m - 2 * INR hw <= 1) by lra. split; [|nra].
        apply (Rmult_le_reg_r (INR m)); [lra|]. rewrite Eb. nra. }
    rewrite Et. rewrite sin_PI_x.
    replace (PI - b + d * sin b) with (PI - (b - d * sin b)) by ring.
    rewrite cos_minus, cos_PI, sin_PI.
    assert (S0 : 0 <= sin b) by (apply sin_ge_0; lra). assert (S1 : sin b <= b) by (apply sin_le_x; lra).
    assert (- b <= d * sin b <= b) by nra.
    assert (0 < cos (b - d * sin b)); [|lra]. apply cos_gt_0; lra.
  Qed.
  (** The centre is strictly inside. *)
  Lemma center_interior : in_interior (dpoly d m) (0, 0).
  Proof.
    intros a b E. destruct (dpoly_edge a b E) as (k & Hk & -> & ->).
    pose proof hw_spec as [H1 H2]. pose proof hw_x as X.
    pose proof (dpt_edge_le k 0 Hk ltac:(lia)) as T0. pose proof (dpt_edge_le k hw Hk ltac:(lia)) as T1.
    pose proof (dpt_edge_le k (m - hw) Hk ltac:(lia)) as T2. rewrite dpt_hw_mirror in T2 by lia. rewrite dpt_0 in T0.
    set (x := fst (dpt d m hw)) in *.
    assert (Q : (1 - x) * turn (dpt d m k) (dpt d m (S k)) (0, 0) = - x * turn (dpt d m k) (dpt d m (S k)) (1, 0) +
       / 2 * (turn (dpt d m k) (dpt d m (S k)) (dpt d m hw) + turn (dpt d m k) (dpt d m (S k)) (x, - snd (dpt d m hw)))).
    { unfold turn, x; cbn [fst snd]. field. }
    apply (Rmult_lt_reg_l (1 - x)); [lra|]. rewrite Rmult_0_r, Q.
    assert (0 <= - x * turn (dpt d m k) (dpt d m (S k)) (1, 0)) by (apply Rmult_le_pos; lra).
    destruct (Nat.eq_dec k 0) as [->|N0]; [|destruct (Nat.eq_dec (S k) m) as [Em|Nm]].
    - pose proof (dpt_edge 0 hw Hk ltac:(lia) ltac:(lia) ltac:(lia) ltac:(lia)). lra.
    - pose proof (dpt_edge k hw Hk ltac:(lia) ltac:(lia) ltac:(lia) ltac:(lia)). lra.
    - pose proof (dpt_edge k 0 Hk ltac:(lia) ltac:(lia) ltac:(lia) ltac:(lia)) as P. rewrite dpt_0 in P.
      assert (0 < - x * turn (dpt d m k) (dpt d m (S k)) (1, 0)) by (apply Rmult_lt_0_compat; lra). lra.
  Qed.
End Poly.

(** ** Affine images *)
Definition placed (A B e f : R) : R * R -> R * R := affine A 0 0 B e f.
Lemma turn_placed A B e f p q r : turn (placed A B e f p) (placed A B e f q) (placed A B e f r) = A * B * turn p q r.
Proof. unfold turn, placed, affine; cbn [fst snd]. ring. Qed.
Lemma edge_map (g : R * R -> R * R) l a b : edge (map g l) a b -> exists a' b', edge l a' b' /\ a = g a' /\ b = g b'.
Proof.
  intros (l1 & l2 & E). apply map_eq_app in E. destruct E as (k1 & k2 & -> & <- & E). destruct k2 as [|a' [|b' k2]]; try discriminate.
  injection E as <- <- <-. exists a', b'. split; [now exists k1, k2|auto].
Qed.
Lemma map_edge (g : R * R -> R * R) l a b : edge l a b -> edge (map g l) (g a) (g b).
Proof. intros (l1 & l2 & ->). exists (map g l1), (map g l2). now rewrite map_app. Qed.
Section Placed.
  Variables A B e f : R.
  Hypothesis PA : 0 < A.
  Hypothesis PB : 0 < B.
  Lemma AB : 0 < A * B. Proof. now apply Rmult_lt_0_compat. Qed.
  Lemma placed_inj p q : placed A B e f p = placed A B e f q -> p = q.
  Proof.
    unfold placed, affine. intro E. injection E as E1 E2. destruct p, q; cbn [fst snd] in *. f_equal.
    - apply (Rmult_eq_reg_l A); lra.
    - apply (Rmult_eq_reg_l B); lra.
  Qed.
  Lemma placed_surj p : exists q, p = placed A B e f q.
  Proof. exists ((fst p - e) / A, (snd p - f) / B). destruct p. unfold placed, affine; cbn [fst snd]. f_equal; field; lra. Qed.
  Lemma placed_in_polygon l p : in_polygon (map (placed A B e f) l) (placed A B e f p) <-> in_polygon l p.
  Proof.
    pose proof AB. split; intros H' a b E.
    - specialize (H' _ _ (map_edge (placed A B e f) l a b E)). rewrite turn_placed in H'. nra.
    - apply edge_map in E. destruct E as (a' & b' & E & -> & ->). specialize (H' a' b' E). rewrite turn_placed. apply Rmult_le_pos; lra.
  Qed.
  Lemma placed_in_interior l p : in_interior (map (placed A B e f) l) (placed A B e f p) <-> in_interior l p.
  Proof.
    pose proof AB. split; intros H' a b E.
    - specialize (H' _ _ (map_edge (placed A B e f) l a b E)). rewrite turn_placed in H'. nra.
    - apply edge_map in E. destruct E as (a' & b' & E & -> & ->). specialize (H' a' b' E). rewrite turn_placed. apply Rmult_lt_0_compat; lra.
  Qed.
  Lemma placed_convex l : convex_polygon l -> convex_polygon (map (placed A B e f) l).
  Proof.
    intros (L & (p & r & -> & Hl & N) & C). split; [now rewrite map_length|]. split.
    - exists (placed A B e f p), (map (placed A B e f) r). split; [reflexivity|]. split; [now rewrite last_map, Hl|].
      apply FinFun.Injective_map_NoDup; [exact placed_inj|exact N].
    - intros a b c E Hc Na Nb. apply edge_map in E. destruct E as (a' & b' & E & -> & ->).
      apply in_map_iff in Hc. destruct Hc as (c' & <- & Hc). rewrite turn_placed.
      apply Rmult_lt_0_compat; [exact AB|]. apply C; auto; intros ->; auto.
  Qed.
End Placed.

(** ** The surfaces *)
Definition major (i : lcfs_info) (psi : R) : R := r_0 i + shafranov_shift i * (1 - psi ^ 2).
Lemma fausser_dcurve i psi n k : shape i -> (2 <= n)%nat ->
  fausser_point i psi (angle n k) = placed (psi * minor_radius i) (kappa i * (psi * minor_radius i)) (major i psi) (z_0 i) (dpt (delta i) (n - 1) k).
Proof.
  intros H Hn. rewrite fausser_eq by exact H. unfold fausser, placed, affine, dpt, dcurve, major; cbn [fst snd].
  unfold angle. f_equal; ring.
Qed.
Lemma fausser_points i psi n s : shape i -> (2 <= n)%nat -> flux_surface (Fausser i) psi n = Ok s ->
  s = SClosed (map (placed (psi * minor_radius i) (kappa i * (psi * minor_radius i)) (major i psi) (z_0 i)) (dpoly (delta i) (n - 1))).
Proof.
  intros H Hn E. apply surface_inv in E; [|exact H]. destruct E as (_ & ->). f_equal. unfold dpoly. rewrite map_map.
  replace (S (n - 1)) with n by lia. apply map_ext. intro k. cbn [pt_of]. now apply fausser_dcurve.
Qed.
Lemma scale_pos i psi : shape i -> 0 < psi -> 0 < psi * minor_radius i /\ 0 < kappa i * (psi * minor_radius i).
Proof.
  intros H P. destruct (shape_facts i H) as (H1 & H2 & H3 & H4 & H5 & H6 & H7).
  assert (0 < psi * minor_radius i) by (apply Rmult_lt_0_compat; lra). split; [assumption|]. apply Rmult_lt_0_compat; lra.
Qed.

(** ** Moments of the D-shaped polygon *)
Lemma dpoly_mom d m : -1 <= d <= 1 -> (3 <= m)%nat -> - edge_sum crs (dpoly d m) <= edge_sum (mom fst) (dpoly d m).
Proof.
  intros Hd Hm. pose proof (dpoly_convex d m Hd Hm) as C. pose proof (convex_loop _ C) as L.
  rewrite (mom_turn (dpoly d m) (1, 0) fst 1 0) by (try exact L; intros; ring).
  rewrite <- (turn_sum (dpoly d m) (1, 0) L).
  assert (E : 0 <= edge_sum (fun p q => (fst (1, 0) + fst p + fst q + 1) * turn (1, 0) p q) (dpoly d m)).
  { apply edge_sum_edges. intros p q E. destruct (dpoly_edge d m Hm p q E) as (k & Hk & -> & ->). apply Rmult_le_pos.
    - unfold dpt, dcurve; cbn [fst].
      destruct (COS_bound (2 * PI * INR k / INR m + d * sin (2 * PI * INR k / INR m))).
      destruct (COS_bound (2 * PI * INR (S k) / INR m + d * sin (2 * PI * INR (S k) / INR m))). lra.
    - rewrite turn_cyclic. rewrite <- (dpt_0 d m). apply dpt_edge_le; auto; lia. }
  assert (Q : edge_sum (fun p q => (fst (1, 0) + fst p + fst q + 1) * turn (1, 0) p q) (dpoly d m) =
     edge_sum (fun p q => (fst (1, 0) + fst p + fst q) * turn (1, 0) p q) (dpoly d m) + edge_sum (turn (1, 0)) (dpoly d m)).
  { rewrite <- edge_sum_plus. apply edge_sum_ext. intros. ring. }
  lra.
Qed.
Lemma dpoly_crs d m : -1 <= d <= 1 -> (3 <= m)%nat -> 0 < edge_sum crs (dpoly d m).
Proof. intros. apply convex_area, dpoly_convex; assumption. Qed.
Lemma placed_area A B e f l : loop l -> 0 <= A * B -> 0 < edge_sum crs l -> area (SClosed (map (placed A B e f) l)) = Ok (A * B * edge_sum crs l / 2).
Proof.
  intros L P C. unfold area. rewrite area_loop by (now apply loop_map). unfold placed. rewrite crs_affine by exact L.
  do 2 f_equal. rewrite Rabs_pos_eq; [ring|]. apply Rmult_le_pos; lra.
Qed.
Lemma placed_volume A B e f l : loop l -> 0 <= A * B -> 0 < edge_sum crs l ->
  volume (SClosed (map (placed A B e f) l)) = Ok (PI / 3 * (A * B * (A * edge_sum (mom fst) l + 3 * e * edge_sum crs l))).
Proof.
  intros L P C. rewrite volume_loop by (now apply loop_map). unfold placed. rewrite crs_affine, mom_affine_x by exact L.
  do 2 f_equal. destruct P as [P|P].
  - destruct (Rltb_spec 0 ((A * B - 0 * 0) * edge_sum crs l)) as [Q|Q]; [ring|]. exfalso. apply Q. apply Rmult_lt_0_compat; lra.
  - rewrite <- P. destruct (Rltb_spec 0 ((0 - 0 * 0) * edge_sum crs l)) as [Q|Q]; [exfalso; lra|].
    destruct (Rltb_spec ((0 - 0 * 0) * edge_sum crs l) 0) as [Q'|Q']; [exfalso; lra|]. ring.
Qed.
Lemma dpoly_mirror d m x z : (3 <= m)%nat -> in_polygon (dpoly d m) (x, z) -> in_polygon (dpoly d m) (x, - z).
Proof.
  intros Hm H a b E. destruct (dpoly_edge d m Hm a b E) as (k & Hk & -> & ->).
  assert (E' : edge (dpoly d m) (dpt d m (m - S k)) (dpt d m (m - k))).
  { replace (m - k)%nat with (S (m - S k)) by lia. apply map_seq_edge. lia. }
  specialize (H _ _ E'). rewrite !(dpt_hw_mirror d m Hm) in H by lia. unfold turn in *; cbn [fst snd] in *. lra.
Qed.
(** An inner region: a linear functional that is positive at the corners is positive at every point of the region. *)
Lemma min_of (g : R * R -> R) l : l <> nil -> exists v, In v l /\ forall w, In w l -> g v <= g w.
Proof.
  induction l as [|a l IH]; intro N; [now contradict N|]. destruct l as [|b l]; [exists a; split; [now left|intros w [->|[]]; lra]|].
  destruct IH as (v & Hv & M); [discriminate|]. destruct (Rle_dec (g a) (g v)) as [C|C].
  - exists a. split; [now left|]. intros w [->|Hw]; [lra|]. specialize (M w Hw). lra.
  - exists v. split; [now right|]. intros w [->|Hw]; [lra|auto].
Qed.
Lemma region_halfplane l p a b : convex_polygon l -> in_polygon l p -> (forall c, In c l -> 0 < turn a b c) -> 0 < turn a b p.
Proof.
  intros C P H. destruct (min_of (turn a b) l) as (v & Hv & M).
  { destruct C as (L & _). intros ->. cbn in L. lia. }
  specialize (H v Hv). pose proof (convex_area l C) as Ar.
  assert (T : forall c, turn a b c = (snd a - snd b) * fst c + (fst b - fst a) * snd c + (- (fst b - fst a) * snd a + fst a * (snd b - snd a))).
  { intro c. unfold turn. ring. }
  pose proof (star_center_halfplane l p (snd a - snd b) (fst b - fst a) (turn a b v - (- (fst b - fst a) * snd a + fst a * (snd b - snd a)))
     (convex_loop l C) (convex_star l p P) ltac:(lra)) as Q.
  rewrite (T p). enough (turn a b v - (- (fst b - fst a) * snd a + fst a * (snd b - snd a)) <= (snd a - snd b) * fst p + (fst b - fst a) * snd p) by lra.
  apply Q. intros c Hc. specialize (M c Hc). rewrite (T c) in M. lra.
Qed.
