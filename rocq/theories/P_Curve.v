(** Property theorems C96: area and volume of surfaces drawn through points of a smooth curve. *)
From Coq Require Import Reals Lra Lia ZArith List Bool.
From Coquelicot Require Import Coquelicot.
From Verif Require Import Base Profile Geometry SpecGeometry GeometryProofs P_Geometry Flux SpecFlux FluxProofs DShape ConvexProofs ConvexFlux PiProofs SpecCurve CurveProofs.
Import ListNotations.
Open Scope R_scope.

(** ** Any smooth closed curve *)
Theorem C96_any_curve : forall c Lx Mx Lz Mz n, smooth_curve c Lx Mx Lz Mz -> (2 <= n)%nat ->
  let err := PI / 2 * ((Lx * Mz + Mx * Lz) * (2 * PI / INR (n - 1)) ^ 2) in
  exists s A V, closed_flux_surface (map c (linspace 0 (2 * PI) n)) = Ok s /\ area s = Ok A /\ volume s = Ok V /\
    Rabs (A - Rabs (enclosed_area c)) <= err /\
    forall X, (forall t, Rabs (fst (c t)) <= X) ->
      (err < enclosed_area c -> Rabs (V - enclosed_volume c) <= 2 * PI * X * err) /\
      (enclosed_area c < - err -> Rabs (V + enclosed_volume c) <= 2 * PI * X * err).
Proof.
  intros c Lx Mx Lz Mz n H Hn err. destruct (closed_turn c n ltac:(lia) (proj1 H)) as [E L]. rewrite E. set (l := map (fun k => c (angle n k)) (seq 0 n)) in *.
  destruct (polygon_sums c Lx Mx Lz Mz n H Hn) as [P1 P2]. fold l in P1, P2. fold err in P1.
  do 3 eexists. split; [reflexivity|]. split; [exact (area_loop l L)|]. split; [exact (volume_loop l L)|]. split.
  - replace (Rabs (edge_sum crs l) / 2) with (Rabs (edge_sum crs l / 2)) by (unfold Rdiv; rewrite Rabs_mult, (Rabs_pos_eq (/ 2)) by lra; reflexivity).
    eapply Rle_trans; [apply Rabs_triang_inv2|exact P1].
  - intros X HX. specialize (P2 X HX). replace (PI ^ 2 * (X * _)) with (2 * PI * X * err) in P2 by (unfold err; field; apply not_0_INR; lia).
    apply Rabs_le_between in P1. split; intro K.
    + destruct (Rltb_spec 0 (edge_sum crs l)) as [Q|Q]; [exact P2|exfalso; lra].
    + destruct (Rltb_spec 0 (edge_sum crs l)) as [Q|Q]; [exfalso; lra|]. destruct (Rltb_spec (edge_sum crs l) 0) as [Q'|Q']; [|exfalso; lra].
      replace (PI / 3 * - edge_sum (mom fst) l + enclosed_volume c) with (- (PI / 3 * edge_sum (mom fst) l - enclosed_volume c)) by ring. now rewrite Rabs_Ropp.
Qed.
Print Assumptions C96_any_curve.

(** ** The parameterised plasma shapes *)
Lemma mul_bound a b A B : Rabs a <= A -> Rabs b <= B -> Rabs (a * b) <= A * B.
Proof. intros. rewrite Rabs_mult. apply Rmult_le_compat; auto; apply Rabs_pos. Qed.
Lemma add_bound a b A B : Rabs a <= A -> Rabs b <= B -> Rabs (a + b) <= A + B.
Proof. intros. eapply Rle_trans; [apply Rabs_triang|]. lra. Qed.
Lemma sin_1 t : Rabs (sin t) <= 1. Proof. apply Rabs_le, SIN_bound. Qed.
Lemma cos_1 t : Rabs (cos t) <= 1. Proof. apply Rabs_le, COS_bound. Qed.
Lemma scal_cos d t : Rabs (d * cos t) <= Rabs d.
Proof. rewrite <- (Rmult_1_r (Rabs d)). apply mul_bound; [apply Rle_refl|apply cos_1]. Qed.
Lemma scal_sin d t : Rabs (d * sin t) <= Rabs d.
Proof. rewrite <- (Rmult_1_r (Rabs d)). apply mul_bound; [apply Rle_refl|apply sin_1]. Qed.
Lemma abs_1 : Rabs 1 <= 1. Proof. rewrite Rabs_R1. apply Rle_refl. Qed.

Lemma fausser_smooth R0 Z0 a k d D psi : 0 <= psi * a -> 0 <= k ->
  smooth_curve (fausser R0 Z0 a k d D psi) (psi * a * (1 + Rabs d)) (psi * a * ((1 + Rabs d) ^ 2 + Rabs d)) (k * (psi * a)) (k * (psi * a)).
Proof.
  intros Ha Hk. set (A := psi * a) in *.
  apply (smooth_of _ (fun t => A * (- sin (t + d * sin t) * (1 + d * cos t)))
    (fun t => A * (- cos (t + d * sin t) * (1 + d * cos t) ^ 2 + sin (t + d * sin t) * (d * sin t)))
    (fun t => k * A * cos t) (fun t => k * A * - sin t)).
  - apply fausser_turn.
  - intro t. unfold fausser; cbn [fst]. fold A. auto_derive; [trivial|ring].
  - intro t. auto_derive; [trivial|ring].
  - intro t. unfold fausser; cbn [snd]. fold A. auto_derive; [trivial|ring].
  - intro t. auto_derive; [trivial|ring].
  - intro t. apply mul_bound; [rewrite Rabs_pos_eq; lra|]. rewrite <- (Rmult_1_l (1 + Rabs d)). apply mul_bound; [rewrite Rabs_Ropp; apply sin_1|].
    apply add_bound; [apply abs_1|apply scal_cos].
  - intro t. apply mul_bound; [rewrite Rabs_pos_eq; lra|]. apply add_bound.
    + rewrite <- (Rmult_1_l ((1 + Rabs d) ^ 2)). apply mul_bound; [rewrite Rabs_Ropp; apply cos_1|]. cbn [pow]. rewrite !Rmult_1_r.
      apply mul_bound; (apply add_bound; [apply abs_1|apply scal_cos]).
    + rewrite <- (Rmult_1_l (Rabs d)). apply mul_bound; [apply sin_1|apply scal_sin].
  - intro t. rewrite <- (Rmult_1_r (k * A)) at 2. apply mul_bound; [rewrite Rabs_pos_eq; [lra|now apply Rmult_le_pos]|apply cos_1].
  - intro t. rewrite <- (Rmult_1_r (k * A)) at 2. apply mul_bound; [rewrite Rabs_pos_eq; [lra|now apply Rmult_le_pos]|rewrite Rabs_Ropp; apply sin_1].
Qed.

(** Area and volume of the smooth plasma shape itself. *)
Lemma fausser_area R0 Z0 a k d D psi :
  enclosed_area (fausser R0 Z0 a k d D psi) = k * (psi * a) ^ 2 * RInt (fun t => cos (t + d * sin t) * cos t) 0 (2 * PI).
Proof.
  unfold enclosed_area.
  rewrite (int_ext _ (fun t => (R0 + D * (1 - psi ^ 2)) * (k * (psi * a)) * cos t + k * (psi * a) ^ 2 * (cos (t + d * sin t) * cos t))).
  - rewrite int_plus by derive_continuous. rewrite !int_scal by derive_continuous. rewrite int_cos. rq. ring.
  - intro t. unfold fausser; cbn [fst snd]. replace (Derive _ t) with (k * (psi * a) * cos t); [rq; ring|].
    symmetry. apply is_derive_unique. auto_derive; [trivial|ring].
Qed.
Lemma fausser_volume R0 Z0 a k d D psi :
  enclosed_volume (fausser R0 Z0 a k d D psi) = 2 * PI * (R0 + D * (1 - psi ^ 2)) * enclosed_area (fausser R0 Z0 a k d D psi)
    + PI * k * (psi * a) ^ 3 * RInt (fun t => cos (t + d * sin t) ^ 2 * cos t) 0 (2 * PI).
Proof.
  set (M := R0 + D * (1 - psi ^ 2)).
  assert (Dz : forall t, Derive (fun s => snd (fausser R0 Z0 a k d D psi s)) t = k * (psi * a) * cos t).
  { intro t. apply is_derive_unique. unfold fausser; cbn [snd]. auto_derive; [trivial|ring]. }
  unfold enclosed_area, enclosed_volume.
  rewrite (int_ext (fun t => fst (fausser R0 Z0 a k d D psi t) * _ t) (fun t => M * (k * (psi * a)) * cos t + k * (psi * a) ^ 2 * (cos (t + d * sin t) * cos t))).
  2:{ intro t. rewrite Dz. unfold fausser, M; cbn [fst]. rq. ring. }
  rewrite (int_ext (fun t => fst (fausser R0 Z0 a k d D psi t) ^ 2 * _ t) (fun t => (M ^ 2 * (k * (psi * a)) * cos t + 2 * M * k * (psi * a) ^ 2 * (cos (t + d * sin t) * cos t)) + k * (psi * a) ^ 3 * (cos (t + d * sin t) ^ 2 * cos t))).
  2:{ intro t. rewrite Dz. unfold fausser, M; cbn [fst]. rq. ring. }
  rewrite !int_plus by derive_continuous. rewrite !int_scal by derive_continuous. rewrite int_cos. rq. ring.
Qed.

(** Two numbers q, q' between 0 and 1 that depend on the triangularity alone give area and volume of all smooth
    plasma shapes; those of the surfaces drawn with n points differ by an explicit multiple of 1 / (n - 1)^2. *)
Theorem C96_fausser : forall tri, -1 <= tri <= 1 -> exists q q', 0 <= q <= 1 /\ 0 <= q' <= 1 /\
  forall i psi n, shape i -> delta i = tri -> 0 <= psi -> (4 <= n)%nat ->
  let a := psi * minor_radius i in
  let d := Rabs (delta i) in
  let centre := r_0 i + shafranov_shift i * (1 - psi ^ 2) in
  let err := PI / 2 * ((2 + 4 * d + d ^ 2) * (kappa i * a ^ 2) * (2 * PI / INR (n - 1)) ^ 2) in
  let curve := fausser (r_0 i) (z_0 i) (minor_radius i) (kappa i) (delta i) (shafranov_shift i) psi in
  let A0 := PI * kappa i * a ^ 2 * (1 - q * tri ^ 2 / 8) in
  let V0 := 2 * PI * centre * A0 - q' * (PI ^ 2 * kappa i * a ^ 3 * tri / 2) in
  enclosed_area curve = A0 /\ enclosed_volume curve = V0 /\
  exists s A V, flux_surface (Fausser i) psi n = Ok s /\ area s = Ok A /\ volume s = Ok V /\
    Rabs (A - A0) <= err /\ Rabs (V - V0) <= 2 * PI * (Rabs centre + a) * err.
Proof.
  intros tri Ht. destruct (d_area tri) as (q & Hq & Iq). destruct (d_volume tri Ht) as (q' & Hq' & Iq'). exists q, q'. split; [exact Hq|]. split; [exact Hq'|].
  intros i psi n H Et Hp Hn a d centre err c A0 V0. destruct (shape_facts i H) as (H1 & H2 & H3 & H4 & H5 & H6 & H7).
  assert (Ha : 0 <= a) by (apply Rmult_le_pos; lra).
  destruct (surface_ok (Fausser i) psi n H ltac:(lia)) as [E L]. cbn [pt_of] in E, L.
  assert (El : map (fun k => fausser_point i psi (angle n k)) (seq 0 n) = map (fun k => c (angle n k)) (seq 0 n)) by (apply map_ext; intro; now apply fausser_eq).
  destruct (polygon_sums c _ _ _ _ n (fausser_smooth (r_0 i) (z_0 i) (minor_radius i) (kappa i) (delta i) (shafranov_shift i) psi Ha ltac:(lra)) ltac:(lia)) as [P1 P2].
  rewrite <- El in P1, P2. fold a d in P1, P2.
  assert (EA : enclosed_area c = A0) by (unfold c; rewrite fausser_area, Et, Iq; unfold A0; fold a; ring).
  assert (EV : enclosed_volume c = V0) by (unfold c; rewrite fausser_volume; fold c a centre; rewrite EA, Et, Iq'; unfold V0; field).
  split; [exact EA|]. split; [exact EV|].
  assert (Q : 0 <= a * (kappa i * a)) by (repeat apply Rmult_le_pos; lra).
  pose proof (fausser_points i psi n _ H ltac:(lia) E) as Epl. apply (f_equal points) in Epl. cbn [points] in Epl. fold a in Epl.
  pose proof (dpoly_crs (delta i) (n - 1) H4 ltac:(lia)) as C. pose proof (convex_loop _ (dpoly_convex (delta i) (n - 1) H4 ltac:(lia))) as Ld.
  exists (SClosed (map (fun k => fausser_point i psi (angle n k)) (seq 0 n))), (edge_sum crs (map (fun k => fausser_point i psi (angle n k)) (seq 0 n)) / 2),
    (PI / 3 * edge_sum (mom fst) (map (fun k => fausser_point i psi (angle n k)) (seq 0 n))).
  split; [exact E|]. split; [|split; [|split]].
  - rewrite Epl. rewrite (placed_area _ _ _ _ _ Ld Q C). unfold placed. rewrite crs_affine by exact Ld. f_equal. field.
  - rewrite Epl. rewrite (placed_volume _ _ _ _ _ Ld Q C). unfold placed. rewrite mom_affine_x by exact Ld. f_equal. field.
  - rewrite <- EA. eapply Rle_trans; [exact P1|]. apply Req_le. unfold err. ring.
  - rewrite <- EV. eapply Rle_trans; [apply (P2 (Rabs centre + a))|].
    + intro t. unfold c, fausser; cbn [fst]. fold a.
      replace (r_0 i + a * cos (t + delta i * sin t) + shafranov_shift i * (1 - psi ^ 2)) with (centre + a * cos (t + delta i * sin t)) by (unfold centre; ring).
      apply add_bound; [apply Rle_refl|]. eapply Rle_trans; [apply scal_cos|]. rewrite Rabs_pos_eq; lra.
    + apply Req_le. unfold err. field. apply not_0_INR. lia.
Qed.
Print Assumptions C96_fausser.

(** The squared-off shape of Sauter, with any squareness. *)
Lemma sauter_smooth R0 Z0 a k d s psi : 0 <= psi * a -> 0 <= k ->
  smooth_curve (sauter R0 Z0 a k d s psi) (psi * a * (1 + Rabs d) + 2 * Rabs s) (psi * a * ((1 + Rabs d) ^ 2 + Rabs d) + 4 * Rabs s)
    (k * (psi * a) * (1 + 2 * Rabs s)) (k * (psi * a) * ((1 + 2 * Rabs s) ^ 2 + 4 * Rabs s)).
Proof.
  intros Ha Hk. set (A := psi * a) in *.
  assert (B2 : forall t, Rabs (2 * s * cos t) <= 2 * Rabs s) by (intro t; eapply Rle_trans; [apply scal_cos|]; rewrite Rabs_mult, (Rabs_pos_eq 2); lra).
  assert (B4 : forall t, Rabs (4 * s * sin t) <= 4 * Rabs s) by (intro t; eapply Rle_trans; [apply scal_sin|]; rewrite Rabs_mult, (Rabs_pos_eq 4); lra).
  assert (KA : Rabs (k * A) <= k * A) by (rewrite Rabs_pos_eq; [lra|now apply Rmult_le_pos]).
  apply (smooth_of _ (fun t => A * (- sin (t + d * sin t) * (1 + d * cos t)) + - (2 * s * cos (2 * t)))
    (fun t => A * (- cos (t + d * sin t) * (1 + d * cos t) ^ 2 + sin (t + d * sin t) * (d * sin t)) + 4 * s * sin (2 * t))
    (fun t => k * A * (cos (t + s * sin (2 * t)) * (1 + 2 * s * cos (2 * t))))
    (fun t => k * A * (- sin (t + s * sin (2 * t)) * (1 + 2 * s * cos (2 * t)) ^ 2 + cos (t + s * sin (2 * t)) * - (4 * s * sin (2 * t))))).
  - apply sauter_turn.
  - intro t. unfold sauter; cbn [fst]. fold A. auto_derive; [trivial|ring].
  - intro t. auto_derive; [trivial|ring].
  - intro t. unfold sauter; cbn [snd]. fold A. auto_derive; [trivial|ring].
  - intro t. auto_derive; [trivial|ring].
  - intro t. apply add_bound; [|rewrite Rabs_Ropp; apply B2]. apply mul_bound; [rewrite Rabs_pos_eq; lra|]. rewrite <- (Rmult_1_l (1 + Rabs d)). apply mul_bound; [rewrite Rabs_Ropp; apply sin_1|].
    apply add_bound; [apply abs_1|apply scal_cos].
  - intro t. apply add_bound; [|apply B4]. apply mul_bound; [rewrite Rabs_pos_eq; lra|]. apply add_bound.
    + rewrite <- (Rmult_1_l ((1 + Rabs d) ^ 2)). apply mul_bound; [rewrite Rabs_Ropp; apply cos_1|]. cbn [pow]. rewrite !Rmult_1_r.
      apply mul_bound; (apply add_bound; [apply abs_1|apply scal_cos]).
    + rewrite <- (Rmult_1_l (Rabs d)). apply mul_bound; [apply sin_1|apply scal_sin].
  - intro t. apply mul_bound; [exact KA|]. rewrite <- (Rmult_1_l (1 + 2 * Rabs s)). apply mul_bound; [apply cos_1|]. apply add_bound; [apply abs_1|apply B2].
  - intro t. apply mul_bound; [exact KA|]. apply add_bound.
    + rewrite <- (Rmult_1_l ((1 + 2 * Rabs s) ^ 2)). apply mul_bound; [rewrite Rabs_Ropp; apply sin_1|]. cbn [pow]. rewrite !Rmult_1_r.
      apply mul_bound; (apply add_bound; [apply abs_1|apply B2]).
    + rewrite <- (Rmult_1_l (4 * Rabs s)). apply mul_bound; [apply cos_1|rewrite Rabs_Ropp; apply B4].
Qed.
Theorem C96_sauter : forall i psi n, shape i -> 0 <= psi -> (2 <= n)%nat ->
  let a := psi * minor_radius i in
  let d := Rabs (delta i) in
  let x := Rabs (squareness i) in
  let curve := sauter (r_0 i) (z_0 i) (minor_radius i) (kappa i) (delta i) (squareness i) psi in
  let err := PI / 2 * (kappa i * a * ((a * (1 + d) + 2 * x) * ((1 + 2 * x) ^ 2 + 4 * x) + (a * ((1 + d) ^ 2 + d) + 4 * x) * (1 + 2 * x)) * (2 * PI / INR (n - 1)) ^ 2) in
  exists s A V, flux_surface (Sauter i) psi n = Ok s /\ area s = Ok A /\ volume s = Ok V /\
    Rabs (A - Rabs (enclosed_area curve)) <= err /\
    (err < enclosed_area curve -> Rabs (V - enclosed_volume curve) <= 2 * PI * (r_0 i + a + x) * err) /\
    (enclosed_area curve < - err -> Rabs (V + enclosed_volume curve) <= 2 * PI * (r_0 i + a + x) * err).
Proof.
  intros i psi n H Hp Hn a d x c err. destruct (shape_facts i H) as (H1 & H2 & H3 & H4 & H5 & H6 & H7).
  assert (Ha : 0 <= a) by (apply Rmult_le_pos; lra).
  destruct (C96_any_curve c _ _ _ _ n (sauter_smooth (r_0 i) (z_0 i) (minor_radius i) (kappa i) (delta i) (squareness i) psi Ha ltac:(lra)) Hn) as (s & A & V & E & EA & EV & K & W).
  match type of K with _ <= ?e => replace e with err in K by (unfold err; fold a d x; ring) end.
  specialize (W (r_0 i + a + x)). exists s, A, V. split; [|split; [exact EA|split; [exact EV|split; [exact K|]]]].
  - unfold flux_surface, single_flux_surface. rewrite <- E. apply (f_equal closed_flux_surface). apply map_ext. intro t. unfold c. apply sauter_eq.
  - match type of W with _ -> (?e < _ -> _) /\ _ => replace e with err in W by (unfold err; fold a d x; ring) end. apply W. intro t. unfold c, sauter; cbn [fst]. fold a.
    unfold Rminus. apply add_bound; [apply add_bound|].
    + rewrite Rabs_pos_eq; lra.
    + eapply Rle_trans; [apply scal_cos|]. rewrite Rabs_pos_eq; lra.
    + rewrite Rabs_Ropp. apply scal_sin.
Qed.
Print Assumptions C96_sauter.

(** ** Ellipses *)
Lemma edge_sum_const (c : R) (g : nat -> R * R) m : forall k, edge_sum (fun _ _ => c) (map g (seq k (S m))) = INR m * c.
Proof.
  induction m as [|m IH]; intro k; [cbn; ring|]. change (seq k (S (S m))) with (k :: S k :: seq (S (S k)) m). cbn [map]. rewrite edge_sum_cons.
  change (g (S k) :: map g (seq (S (S k)) m)) with (map g (seq (S k) (S m))). rewrite IH, S_INR. ring.
Qed.
Lemma edge_sum_loop_zero c (g : R * R -> R) l : loop l -> edge_sum (fun p q => c * (g q - g p)) l = 0.
Proof. intros (p & r & -> & L). rewrite edge_sum_scale, edge_sum_tele, L. ring. Qed.
Lemma dpt_circle m k : (1 <= m)%nat -> let e := PI / INR m in let M := 2 * PI * INR k / INR m + e in
  dpt 0 m k = (cos (M - e), sin (M - e)) /\ dpt 0 m (S k) = (cos (M + e), sin (M + e)).
Proof.
  intros Hm e M. assert (INR m <> 0) by (apply not_0_INR; lia). unfold dpt, dcurve. rewrite S_INR. split; f_equal; f_equal; unfold M, e; try (field; assumption).
  all: rewrite Rmult_0_l, Rplus_0_r; field; assumption.
Qed.
Lemma circle_sums m : (3 <= m)%nat ->
  edge_sum crs (dpoly 0 m) = INR m * sin (2 * PI / INR m) /\ edge_sum (mom fst) (dpoly 0 m) = 0 /\ edge_sum (mom snd) (dpoly 0 m) = 0.
Proof.
  intro Hm. assert (Hd : -1 <= 0 <= 1) by lra. pose proof (convex_loop _ (dpoly_convex 0 m Hd Hm)) as L.
  set (e := PI / INR m). assert (Ee : 2 * PI / INR m = 2 * e) by (unfold e; field; apply not_0_INR; lia).
  assert (CR : forall p q, edge (dpoly 0 m) p q -> exists M, p = (cos (M - e), sin (M - e)) /\ q = (cos (M + e), sin (M + e)) /\ crs p q = sin (2 * e)).
  { intros p q Epq. destruct (dpoly_edge 0 m Hm p q Epq) as (k & Hk & -> & ->). destruct (dpt_circle m k ltac:(lia)) as [-> ->]. eexists. split; [reflexivity|]. split; [reflexivity|].
    fold e. unfold crs; cbn [fst snd]. replace (2 * e) with ((2 * PI * INR k / INR m + e + e) - (2 * PI * INR k / INR m + e - e)) by ring. rewrite (sin_minus (2 * PI * INR k / INR m + e + e)). ring. }
  rewrite Ee. split; [|split].
  - rewrite (edge_sum_ext_edges crs (fun _ _ => sin (2 * e)) (dpoly 0 m)) by (intros p q Epq; now destruct (CR p q Epq) as (M & _ & _ & ->)). apply edge_sum_const.
  - rewrite (edge_sum_ext_edges (mom fst) (fun p q => 2 * cos e ^ 2 * (snd q - snd p)) (dpoly 0 m)); [now apply edge_sum_loop_zero|].
    intros p q Epq. destruct (CR p q Epq) as (M & -> & -> & Cr). unfold mom. rewrite Cr. cbn [fst snd]. rewrite cos_minus, cos_plus, sin_minus, sin_plus, sin_2a. ring.
  - rewrite (edge_sum_ext_edges (mom snd) (fun p q => - (2 * cos e ^ 2) * (fst q - fst p)) (dpoly 0 m)); [now apply edge_sum_loop_zero|].
    intros p q Epq. destruct (CR p q Epq) as (M & -> & -> & Cr). unfold mom. rewrite Cr. cbn [fst snd]. rewrite cos_minus, cos_plus, sin_minus, sin_plus, sin_2a. ring.
Qed.
Lemma sin_ge_cubic x : 0 <= x -> x - x ^ 3 / 6 <= sin x.
Proof.
  intro H. assert (W : forall t, is_derive (fun t => t - t ^ 3 / 6 - sin t) t (1 - t ^ 2 / 2 - cos t)) by (intro t; auto_derive; [trivial|field]).
  destruct (mvt _ _ 0 x W H) as (c & Hc & E). rewrite sin_0 in E. pose proof (cos_ge c). assert ((1 - c ^ 2 / 2 - cos c) * (x - 0) <= 0) by nra. lra.
Qed.
Theorem C96_ellipse : forall i psi n, shape i -> delta i = 0 -> 0 < psi -> (4 <= n)%nat ->
  let a := psi * minor_radius i in
  let centre := r_0 i + shafranov_shift i * (1 - psi ^ 2) in
  let h := 2 * PI / INR (n - 1) in
  exists s A, flux_surface (Fausser i) psi n = Ok s /\ area s = Ok A /\
    A = PI * kappa i * a ^ 2 * (sin h / h) /\
    PI * kappa i * a ^ 2 * (1 - h ^ 2 / 6) <= A < PI * kappa i * a ^ 2 /\
    center_of_mass s = Ok (centre, z_0 i) /\ volume s = Ok (2 * PI * centre * A).
Proof.
  intros i psi n H E0 Hp Hn a centre h. destruct (shape_facts i H) as (H1 & H2 & H3 & H4 & H5 & H6 & H7).
  destruct (scale_pos i psi H Hp) as [P1 P2]. fold a in P1, P2.
  destruct (surface_ok (Fausser i) psi n H ltac:(lia)) as [E L]. pose proof (fausser_points i psi n _ H ltac:(lia) E) as Epl. rewrite E0 in Epl. fold a in Epl. change (major i psi) with centre in Epl.
  destruct (circle_sums (n - 1) ltac:(lia)) as (S1 & S2 & S3). fold h in S1.
  pose proof (dpoly_crs 0 (n - 1) ltac:(lra) ltac:(lia)) as C. pose proof (convex_loop _ (dpoly_convex 0 (n - 1) ltac:(lra) ltac:(lia))) as Ld.
  assert (N : 0 < INR (n - 1)) by (apply lt_0_INR; lia). pose proof PI_RGT_0 as Pi. assert (Hh : 0 < h) by (apply Rdiv_lt_0_compat; lra).
  assert (Nh : INR (n - 1) = 2 * PI / h) by (unfold h; field; lra).
  assert (EA : a * (kappa i * a) * edge_sum crs (dpoly 0 (n - 1)) / 2 = PI * kappa i * a ^ 2 * (sin h / h)) by (rewrite S1, Nh; field; lra).
  assert (Q : 0 < PI * kappa i * a ^ 2) by (apply Rmult_lt_0_compat; [apply Rmult_lt_0_compat; lra|now apply pow_lt]).
  assert (Q1 : 0 < a * (kappa i * a)) by (apply Rmult_lt_0_compat; lra). assert (Q0 : 0 <= a * (kappa i * a)) by lra.
  rewrite E, Epl. do 2 eexists. split; [reflexivity|]. split; [rewrite (placed_area _ _ _ _ _ Ld Q0 C); now rewrite EA|]. split; [reflexivity|]. split; [|split].
  - pose proof (sin_ge_cubic h ltac:(lra)) as K. pose proof (sin_lt_x h Hh) as K'. split.
    + apply Rmult_le_compat_l; [lra|]. apply (Rmult_le_reg_r h); [exact Hh|]. replace (sin h / h * h) with (sin h) by (field; lra). lra.
    + rewrite <- (Rmult_1_r (PI * kappa i * a ^ 2)) at 2. apply Rmult_lt_compat_l; [exact Q|]. apply (Rmult_lt_reg_r h); [exact Hh|]. replace (sin h / h * h) with (sin h) by (field; lra). lra.
  - unfold center_of_mass. rewrite centroid_loop; [|now apply loop_map|].
    + unfold placed. rewrite mom_affine_x, mom_affine_z, crs_affine by exact Ld. rewrite S2, S3. f_equal. f_equal; field; repeat split; lra.
    + unfold placed. rewrite crs_affine by exact Ld. replace (a * (kappa i * a) - 0 * 0) with (a * (kappa i * a)) by ring. apply Rgt_not_eq, Rmult_lt_0_compat; assumption.
  - rewrite (placed_volume _ _ _ _ _ Ld Q0 C). rewrite S2. f_equal. rewrite <- EA. field.
Qed.
Print Assumptions C96_ellipse.

(** Concrete cases: a D-shaped plasma (its enclosed area is far larger than the error bound, as C96_sauter asks),
    and the circle of the project's own tests, whose area and volume are within 1e-4 of the exact values. *)
Example C96_example_d : exists i s A, shape i /\ delta i = 2 / 5 /\ flux_surface (Fausser i) 1 1000 = Ok s /\ area s = Ok A /\ 49.8 < A < 50.9.
Proof.
  pose proof (lcfs_ok 9 0 3 (9 / 5) (2 / 5) (1 / 2) 0) as E. cbv zeta in E.
  assert (S : sensible 9 3 (9 / 5) (2 / 5) (1 / 2)) by (unfold sensible; rewrite Rabs_pos_eq; lra). specialize (E S). rewrite Rabs_pos_eq in E by lra.
  match type of E with _ = Ok ?x => set (i := x) in E end. assert (Hi : shape i) by (do 7 eexists; exact E).
  destruct (C96_fausser (2 / 5) ltac:(lra)) as (q & q' & Hq & _ & F).
  specialize (F i 1 1000%nat Hi eq_refl ltac:(lra) ltac:(apply Nat.leb_le; vm_compute; reflexivity)).
  cbv zeta in F. cbn [r_0 z_0 minor_radius kappa delta shafranov_shift i] in F.
  destruct F as (_ & _ & s & A & V & Es & EA & _ & B & _). exists i, s, A. split; [exact Hi|]. split; [reflexivity|]. split; [exact Es|]. split; [exact EA|].
  replace (INR (1000 - 1)) with 999 in B by (rewrite INR_IZR_INZ; f_equal). rewrite (Rabs_pos_eq (2 / 5)) in B by lra.
  apply Rabs_le_between in B. pose proof PI_16 as P. assert (P2 : PI ^ 3 <= 32) by nra.
  replace (PI / 2 * ((2 + 4 * (2 / 5) + (2 / 5) ^ 2) * ((9 / 5) * (1 * (9 / 3)) ^ 2) * (2 * PI / 999) ^ 2)) with (PI ^ 3 * ((752 / 100) * (162 / 10) / 999 ^ 2)) in B by field.
  replace (PI * (9 / 5) * (1 * (9 / 3)) ^ 2 * (1 - q * (2 / 5) ^ 2 / 8)) with ((162 / 10) * PI - (324 / 1000) * (q * PI)) in B by field.
  assert (0 <= q * PI <= PI) by nra. split; lra.
Qed.
Example C96_example_circle : exists i s A V, shape i /\ delta i = 0 /\ flux_surface (Fausser i) 1 500 = Ok s /\ area s = Ok A /\ volume s = Ok V /\
  Rabs (A - PI * 4 ^ 2) <= 1e-4 * (PI * 4 ^ 2) /\ Rabs (V - 2 * PI * 9 * (PI * 4 ^ 2)) <= 1e-4 * (2 * PI * 9 * (PI * 4 ^ 2)).
Proof.
  pose proof (lcfs_ok 9 0 (9 / 4) 1 0 0 0) as E. assert (S : sensible 9 (9 / 4) 1 0 0) by (unfold sensible; rewrite Rabs_pos_eq; lra). specialize (E S). rewrite Rabs_pos_eq in E by lra.
  match type of E with _ = Ok ?x => set (i := x) in E end. assert (Hi : shape i) by (do 7 eexists; exact E).
  destruct (C96_ellipse i 1 500 Hi eq_refl ltac:(lra) ltac:(apply Nat.leb_le; vm_compute; reflexivity)) as (s & A & Es & EA & _ & B & _ & EV).
  cbn [r_0 z_0 minor_radius kappa delta shafranov_shift i] in B, EV.
  exists i, s, A. eexists. split; [exact Hi|]. split; [reflexivity|]. split; [exact Es|]. split; [exact EA|]. split; [exact EV|].
  replace (INR (500 - 1)) with 499 in B by (rewrite INR_IZR_INZ; f_equal). replace (1 * (9 / (9 / 4))) with 4 in B by field.
  pose proof PI_16 as P. assert (H : (2 * PI / 499) ^ 2 / 6 <= 1e-4) by (assert (PI ^ 2 <= 10) by nra; replace ((2 * PI / 499) ^ 2 / 6) with (PI ^ 2 * (4 / 499 ^ 2 / 6)) by field; lra).
  replace (PI * 1 * 4 ^ 2) with (PI * 4 ^ 2) in B by ring. set (T := PI * 4 ^ 2) in *. assert (HT : 0 < T) by (unfold T; nra).
  assert (D : Rabs (A - T) <= 1e-4 * T) by (apply Rabs_le; nra). split; [exact D|].
  replace (2 * PI * (9 + 0 * (1 - 1 ^ 2)) * A - 2 * PI * 9 * T) with (2 * PI * 9 * (A - T)) by ring. rewrite Rabs_mult, (Rabs_pos_eq (2 * PI * 9)) by nra.
  replace (1e-4 * (2 * PI * 9 * T)) with (2 * PI * 9 * (1e-4 * T)) by ring. apply Rmult_le_compat_l; [nra|exact D].
Qed.
