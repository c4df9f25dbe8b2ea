(** The D-shaped curve t -> (cos (t + d sin t), sin t) is strictly convex for every |d| <= 1. *)
From Coq Require Import Reals Lra Lia List Psatz.
From Coquelicot Require Import Coquelicot.
From Verif Require Import Base SpecGeometry SpecConvex ConvexProofs.
Open Scope R_scope.

Definition dcurve (d t : R) : R * R := (cos (t + d * sin t), sin t).

(** ** Trigonometric facts *)
Lemma sin_lt_x u : 0 < u -> sin u < u.
Proof. apply sin_lt_x. Qed.
Lemma sin_le_x u : 0 <= u -> sin u <= u.
Proof. intros [H| <-]; [left; now apply sin_lt_x|rewrite sin_0; lra]. Qed.
Lemma cos_lower x : 0 <= x -> 1 - x ^ 2 / 2 <= cos x.
Proof.
  intro H. replace x with (2 * (x / 2)) at 2 by field. rewrite cos_2a_sin. 
  assert (A : sin (x / 2) ^ 2 <= (x / 2) ^ 2).
  { destruct (Rle_dec 0 (sin (x / 2))) as [P|P].
    - apply pow_incr. split; [exact P|apply sin_le_x; lra].
    - destruct (SIN_bound (x / 2)) as [S1 S2].
      replace (sin (x / 2) ^ 2) with ((- sin (x / 2)) ^ 2) by ring. apply pow_incr. split; [lra|].
      destruct (Rle_dec (x / 2) PI) as [L|L]; [exfalso; apply P; apply sin_ge_0; lra|].
      pose proof PI2_3_2. lra. }
  lra.
Qed.
Lemma cos_gt_neg2 a b : cos (a - b) = cos a * cos b + sin a * sin b.
Proof. apply cos_minus. Qed.

(** The tangent of the outer arc turns: the numerator of the derivative of its slope. *)
Lemma slope_numerator d u : -1 <= d <= 1 -> 0 < u < PI / 2 ->
  0 < cos (u + d * sin u) * (1 + d * cos u) ^ 2 * cos u + sin (u + d * sin u) * sin u.
Proof.
  intros Hd Hu. pose proof PI_RGT_0. pose proof PI2_3_2.
  assert (S0 : 0 < sin u) by (apply sin_gt_0; lra). assert (C0 : 0 < cos u) by (apply cos_gt_0; lra).
  assert (Sx : sin u < u) by (apply sin_lt_x; lra). assert (S1 : sin u <= 1) by apply SIN_bound.
  set (f := u + d * sin u).
  assert (F0 : 0 < f) by (unfold f; nra). assert (F1 : f < PI) by (unfold f; nra).
  assert (SF : 0 < sin f) by (apply sin_gt_0; lra).
  destruct (Rle_dec 0 (cos f)) as [P|N].
  - assert (0 <= cos f * (1 + d * cos u) ^ 2 * cos u).
    { apply Rmult_le_pos; [apply Rmult_le_pos; [exact P|apply pow2_ge_0]|lra]. }
    assert (0 < sin f * sin u) by (apply Rmult_lt_0_compat; lra). lra.
  - apply Rnot_le_lt in N.
    assert (F2 : PI / 2 < f). { apply Rnot_le_lt. intro. apply (Rlt_not_le _ _ N). apply cos_ge_0; lra. }
    set (v := PI / 2 - u). set (w := f - PI / 2).
    assert (Ef : f = PI / 2 + w) by (unfold w; ring). assert (Eu : u = PI / 2 - v) by (unfold v; ring).
    assert (Hcf : cos f = - sin w) by (rewrite Ef, cos_plus, cos_PI2, sin_PI2; ring).
    assert (Hsf : sin f = cos w) by (rewrite Ef, sin_plus, cos_PI2, sin_PI2; ring).
    assert (Hcu : cos u = sin v) by (rewrite Eu, cos_minus, cos_PI2, sin_PI2; ring).
    assert (Hsu : sin u = cos v) by (rewrite Eu, sin_minus, cos_PI2, sin_PI2; ring).
    assert (Hvw : v + w = d * cos v) by (rewrite <- Hsu; unfold v, w, f; ring).
    rewrite Hcf, Hsf, Hcu, Hsu in *.
    assert (v > 0) by (unfold v; lra). assert (w > 0) by (unfold w; lra).
    assert (sin v <= v) by (apply sin_le_x; lra).
    assert (D0 : 0 < d) by nra. assert (VC : v + w <= cos v) by (rewrite Hvw; nra).
    assert (SC : sin v * sin v + cos v * cos v = 1) by (pose proof (sin2_cos2 v) as Q; unfold Rsqr in Q; lra).
    assert (Hs2 : sin v * sin v <= / 2) by nra.
    assert (Hs : sin v < 3 / 4) by nra.
    assert (HB : (1 + d * sin v) ^ 2 - 1 < 2).
    { assert (d * sin v <= sin v) by nra. assert (0 <= d * sin v) by nra. assert ((d * sin v) ^ 2 <= / 2) by nra.
      replace ((1 + d * sin v) ^ 2 - 1) with (2 * (d * sin v) + (d * sin v) ^ 2) by ring. lra. }
    assert (HB0 : 0 <= (1 + d * sin v) ^ 2 - 1) by nra.
    set (B := (1 + d * sin v) ^ 2) in *.
    assert (V1 : v + w <= 1) by lra.
    assert (HC : / 2 <= cos (v + w)).
    { eapply Rle_trans; [|apply cos_lower; lra]. assert ((v + w) ^ 2 <= 1) by nra. lra. }
    pose proof (cos_plus v w) as E1. pose proof (cos_minus v w) as E2. pose proof (COS_bound (v - w)) as [_ E3].
    set (p := sin v * sin w) in *. set (q := cos v * cos w) in *.
    replace (- sin w * B * sin v + cos w * cos v) with (q - p * B) by (unfold p, q; ring).
    assert (p <= (1 - cos (v + w)) / 2) by lra. rewrite E1 in *.
    assert (P0 : 0 <= p). { unfold p. apply Rmult_le_pos; [lra|]. left. apply sin_gt_0; unfold w in *; lra. }
    assert (p * (B - 1) <= p * 2) by (apply Rmult_le_compat_l; lra).
    destruct (Req_dec p 0) as [Z|Z]; [rewrite Z in *; lra|].
    assert (p * (B - 1) < p * 2) by (apply Rmult_lt_compat_l; lra). lra.
Qed.

(** Minus the slope dx/dz of the outer arc. *)
Definition slope (d u : R) : R := sin (u + d * sin u) * (/ cos u + d).
Lemma slope_derive d u : cos u <> 0 ->
  is_derive (slope d) u ((cos (u + d * sin u) * (1 + d * cos u) ^ 2 * cos u + sin (u + d * sin u) * sin u) / cos u ^ 2).
Proof.
  intro H. unfold slope. auto_derive; [exact H|]. field. exact H.
Qed.
Lemma slope_neg d u : slope d (- u) = - slope d u.
Proof. unfold slope. rewrite sin_neg, cos_neg. replace (- u + d * - sin u) with (- (u + d * sin u)) by ring. rewrite sin_neg. ring. Qed.
Lemma slope_incr_pos d a b : -1 <= d <= 1 -> 0 <= a < b -> b < PI / 2 -> slope d a < slope d b.
Proof.
  intros Hd Ha Hb. pose proof PI_RGT_0.
  destruct (MVT_cor2 (slope d) (fun u => (cos (u + d * sin u) * (1 + d * cos u) ^ 2 * cos u + sin (u + d * sin u) * sin u) / cos u ^ 2) a b ltac:(lra)) as (c & E & Hc).
  - intros x Hx. apply is_derive_Reals, slope_derive. apply Rgt_not_eq, cos_gt_0; lra.
  - assert (0 < cos c) by (apply cos_gt_0; lra).
    pose proof (slope_numerator d c Hd ltac:(lra)) as N.
    assert (0 < slope d b - slope d a); [|lra]. rewrite E. apply Rmult_lt_0_compat; [|lra].
    apply Rdiv_lt_0_compat; [exact N|]. apply pow_lt; assumption.
Qed.
Lemma slope_0 d : slope d 0 = 0.
Proof. unfold slope. rewrite sin_0. replace (0 + d * 0) with 0 by ring. rewrite sin_0. ring. Qed.
Lemma slope_incr d a b : -1 <= d <= 1 -> - (PI / 2) < a -> a < b -> b < PI / 2 -> slope d a < slope d b.
Proof.
  intros Hd Ha Hab Hb. destruct (Rle_dec 0 a) as [A|A]; [apply slope_incr_pos; lra|].
  destruct (Rle_dec b 0) as [B|B].
  - pose proof (slope_incr_pos d (- b) (- a) Hd ltac:(lra) ltac:(lra)) as Q. rewrite !slope_neg in Q. lra.
  - pose proof (slope_incr_pos d 0 b Hd ltac:(lra) ltac:(lra)) as Q1.
    pose proof (slope_incr_pos d 0 (- a) Hd ltac:(lra) ltac:(lra)) as Q2. rewrite slope_neg, slope_0 in *. lra.
Qed.

(** ** Three points on the outer arc *)
Lemma sin_incr a b : - (PI / 2) <= a -> a < b -> b <= PI / 2 -> sin a < sin b.
Proof. intros. apply sin_increasing_1; lra. Qed.
Lemma chord d a b : - (PI / 2) <= a -> a < b -> b <= PI / 2 ->
  exists c, a < c < b /\ fst (dcurve d b) - fst (dcurve d a) = - slope d c * (sin b - sin a).
Proof.
  intros Ha Hab Hb. cbn [dcurve fst]. set (X := cos (b + d * sin b) - cos (a + d * sin a)). set (Z := sin b - sin a).
  destruct (MVT_cor2 (fun u => X * sin u - Z * cos (u + d * sin u)) (fun u => X * cos u + Z * (sin (u + d * sin u) * (1 + d * cos u))) a b Hab) as (c & E & Hc).
  - intros x _. apply is_derive_Reals. auto_derive; [exact I|]. ring.
  - exists c. split; [exact Hc|]. assert (C0 : 0 < cos c) by (apply cos_gt_0; lra).
    replace (X * sin b - Z * cos (b + d * sin b) - (X * sin a - Z * cos (a + d * sin a))) with (X * Z - Z * X) in E by (unfold X, Z; ring).
    assert (Q : X * cos c + Z * (sin (c + d * sin c) * (1 + d * cos c)) = 0).
    { apply (Rmult_eq_reg_r (b - a)); lra. }
    unfold slope. apply (Rmult_eq_reg_r (cos c)); [|lra].
    replace (- (sin (c + d * sin c) * (/ cos c + d)) * Z * cos c) with (- (Z * (sin (c + d * sin c) * (1 + d * cos c)))) by (field; lra). lra.
Qed.
Lemma outer_turn d a b c : -1 <= d <= 1 -> - (PI / 2) <= a -> a < b -> b < c -> c <= PI / 2 ->
  0 < turn (dcurve d a) (dcurve d b) (dcurve d c).
Proof.
  intros Hd Ha Hab Hbc Hc.
  destruct (chord d a b Ha Hab ltac:(lra)) as (s & Hs & E1). destruct (chord d b c ltac:(lra) Hbc Hc) as (t & Ht & E2).
  pose proof (slope_incr d s t Hd ltac:(lra) ltac:(lra) ltac:(lra)) as M.
  pose proof (sin_incr a b Ha Hab ltac:(lra)) as Z1. pose proof (sin_incr b c ltac:(lra) Hbc Hc) as Z2.
  unfold turn. cbn [dcurve snd]. 
  replace ((fst (dcurve d b) - fst (dcurve d a)) * (sin c - sin a) - (fst (dcurve d c) - fst (dcurve d a)) * (sin b - sin a))
    with ((fst (dcurve d b) - fst (dcurve d a)) * (sin c - sin b) - (fst (dcurve d c) - fst (dcurve d b)) * (sin b - sin a)) by ring.
  rewrite E1, E2.
  replace (- slope d s * (sin b - sin a) * (sin c - sin b) - - slope d t * (sin c - sin b) * (sin b - sin a))
    with ((slope d t - slope d s) * ((sin c - sin b) * (sin b - sin a))) by ring.
  apply Rmult_lt_0_compat; [lra|]. apply Rmult_lt_0_compat; lra.
Qed.

(** ** The whole curve *)
Lemma dcurve_mirror d t : dcurve (- d) (PI - t) = (- fst (dcurve d t), snd (dcurve d t)).
Proof.
  unfold dcurve; cbn [fst snd]. rewrite sin_PI_x. f_equal. replace (PI - t + - d * sin t) with (PI - (t + d * sin t)) by ring.
  rewrite cos_minus, cos_PI, sin_PI. ring.
Qed.
Lemma dcurve_period d t : dcurve d (t - 2 * PI) = dcurve d t.
Proof.
  assert (Q : sin (t - 2 * PI) = sin t).
  { rewrite <- (sin_period (t - 2 * PI) 1). f_equal. cbn [INR]. ring. }
  unfold dcurve. rewrite Q. f_equal.
  rewrite <- (cos_period (t - 2 * PI + d * sin t) 1). f_equal. cbn [INR]. ring.
Qed.
Lemma turn_mirror d r s t : turn (dcurve d r) (dcurve d s) (dcurve d t) =
  turn (dcurve (- d) (PI - t)) (dcurve (- d) (PI - s)) (dcurve (- d) (PI - r)).
Proof. rewrite !dcurve_mirror. unfold turn; cbn [fst snd]. ring. Qed.
Lemma dcurve_top d : dcurve d (PI / 2) = (- sin d, 1).
Proof. unfold dcurve. rewrite sin_PI2. f_equal. replace (PI / 2 + d * 1) with (PI / 2 + d) by ring. rewrite cos_plus, cos_PI2, sin_PI2. ring. Qed.
Lemma dcurve_bottom d : dcurve d (- (PI / 2)) = (- sin d, -1).
Proof. unfold dcurve. rewrite sin_neg, sin_PI2. f_equal. replace (- (PI / 2) + d * - (1)) with (- (PI / 2 + d)) by ring. rewrite cos_neg, cos_plus, cos_PI2, sin_PI2. ring. Qed.
Lemma outer_right d u : -1 <= d <= 1 -> - (PI / 2) < u < PI / 2 -> - sin d < fst (dcurve d u) /\ -1 < snd (dcurve d u) < 1.
Proof.
  intros Hd Hu. pose proof (outer_turn d (- (PI / 2)) u (PI / 2) Hd ltac:(lra) ltac:(lra) ltac:(lra) ltac:(lra)) as Q.
  rewrite dcurve_top, dcurve_bottom in Q. unfold turn in Q; cbn [fst snd] in Q. split; [lra|]. cbn [dcurve snd].
  pose proof (sin_incr (- (PI / 2)) u ltac:(lra) ltac:(lra) ltac:(lra)) as Z1. pose proof (sin_incr u (PI / 2) ltac:(lra) ltac:(lra) ltac:(lra)) as Z2.
  rewrite sin_neg, sin_PI2 in *. lra.
Qed.
Lemma inner_left d t : -1 <= d <= 1 -> PI / 2 < t < 3 * (PI / 2) -> fst (dcurve d t) < - sin d /\ -1 < snd (dcurve d t) < 1.
Proof.
  intros Hd Ht. destruct (outer_right (- d) (PI - t) ltac:(lra) ltac:(lra)) as [A B]. rewrite dcurve_mirror in A, B. cbn [fst snd] in A, B.
  rewrite sin_neg in A. lra.
Qed.
(** Two points on the outer arc and one on the inner arc. *)
Lemma ooi_turn d a b t : -1 <= d <= 1 -> - (PI / 2) <= a -> a < b -> b <= PI / 2 -> PI / 2 <= t -> b < t -> t <= 3 * (PI / 2) -> t - 2 * PI < a ->
  0 < turn (dcurve d a) (dcurve d b) (dcurve d t).
Proof.
  intros Hd Ha Hab Hb Ht Hbt Ht3 Hta.
  destruct (Req_dec t (PI / 2)) as [->|N1]; [apply outer_turn; lra|].
  destruct (Req_dec t (3 * (PI / 2))) as [->|N2].
  { rewrite <- (dcurve_period d (3 * (PI / 2))). replace (3 * (PI / 2) - 2 * PI) with (- (PI / 2)) in * by field.
    rewrite turn_cyclic, turn_cyclic. apply outer_turn; lra. }
  destruct (inner_left d t Hd ltac:(lra)) as [L S]. destruct (dcurve d t) as [x z] eqn:Q. cbn [fst snd] in L, S. clear Q.
  assert (T : 0 <= turn (dcurve d a) (dcurve d b) (dcurve d (PI / 2))).
  { destruct (Req_dec b (PI / 2)) as [->|]; [unfold turn; lra|]. left. apply outer_turn; lra. }
  assert (B : 0 <= turn (dcurve d a) (dcurve d b) (dcurve d (- (PI / 2)))).
  { destruct (Req_dec a (- (PI / 2))) as [->|]; [unfold turn; lra|]. left. rewrite turn_cyclic, turn_cyclic. apply outer_turn; lra. }
  rewrite dcurve_top in T. rewrite dcurve_bottom in B.
  pose proof (sin_incr a b Ha Hab Hb) as Z.
  assert (E : turn (dcurve d a) (dcurve d b) (x, z) = (1 + z) / 2 * turn (dcurve d a) (dcurve d b) (- sin d, 1) +
     (1 - z) / 2 * turn (dcurve d a) (dcurve d b) (- sin d, -1) + (- sin d - x) * (sin b - sin a)).
  { unfold turn; cbn [dcurve fst snd]. field. }
  rewrite E. assert (0 < (- sin d - x) * (sin b - sin a)) by (apply Rmult_lt_0_compat; lra).
  assert (0 <= (1 + z) / 2 * turn (dcurve d a) (dcurve d b) (- sin d, 1)) by (apply Rmult_le_pos; lra).
  assert (0 <= (1 - z) / 2 * turn (dcurve d a) (dcurve d b) (- sin d, -1)) by (apply Rmult_le_pos; lra). lra.
Qed.
Lemma turn_shifted d r s t : -1 <= d <= 1 -> - (PI / 2) <= r -> r < s -> s < t -> t < 3 * (PI / 2) ->
  0 < turn (dcurve d r) (dcurve d s) (dcurve d t).
Proof.
  intros Hd Hr Hrs Hst Ht. pose proof PI_RGT_0.
  destruct (Rle_dec t (PI / 2)); [apply outer_turn; lra|].
  destruct (Rle_dec s (PI / 2)); [apply ooi_turn; lra|].
  rewrite turn_mirror. destruct (Rle_dec r (PI / 2)); [apply ooi_turn; lra|apply outer_turn; lra].
Qed.
Theorem dcurve_turn d r s t : -1 <= d <= 1 -> 0 <= r -> r < s -> s < t -> t < 2 * PI ->
  0 < turn (dcurve d r) (dcurve d s) (dcurve d t).
Proof.
  intros Hd Hr Hrs Hst Ht. pose proof PI_RGT_0.
  destruct (Rlt_dec t (3 * (PI / 2))); [apply turn_shifted; lra|]. rewrite <- (dcurve_period d t).
  destruct (Rlt_dec s (3 * (PI / 2))); [rewrite turn_cyclic, turn_cyclic; apply turn_shifted; lra|]. rewrite <- (dcurve_period d s).
  destruct (Rlt_dec r (3 * (PI / 2))); [rewrite turn_cyclic; apply turn_shifted; lra|]. rewrite <- (dcurve_period d r).
  apply turn_shifted; lra.
Qed.
