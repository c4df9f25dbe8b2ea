(** Property theorems C84 (the sampled cells fill the plasma). *)
From Coq Require Import Reals Lra Lia ZArith List Bool.
From Verif Require Import Base Space SpaceProofs SpecSpace P_Space Geometry GeometryProofs SpecGeometry P_Geometry Flux SpecFlux FluxProofs P_Flux
  SpecConvex ConvexProofs DShape ConvexFlux P_Convex SpecGrid GridProofs GridProofs2 GridConvex.
Open Scope R_scope.

(** The area covered by the cells differs from the area of the plasma by at most
    h/2 times (the distance the boundary travels in x, plus the number of times it crosses a height times the height of the plasma plus h). *)
Theorem C84_area : forall ex l o h ss A X Zlo Zhi c, 0 < h -> simple_but ex l -> crossed_at_most c l ->
  (forall v, In v l -> 0 <= fst v <= X /\ Zlo <= snd v <= Zhi) ->
  sample_space_2d mpl_inside l o h = Ok ss -> area (SClosed l) = Ok A ->
  Rabs (INR (length ss) * (h * h) - A) <= h / 2 * (travel_x l + INR c * (Zhi - Zlo + h)) + INR (length ex) * (INR c + 1) * (h * h).
Proof.
  intros ex l o h ss A X Zlo Zhi c Hh Hs Hc Hb E EA. pose proof Hs as [L _]. destruct (simple_sense ex l Hs) as (s & H1 & Hsen).
  destruct (cells_samples ex l Hs X Zlo Zhi Hb o h ss s c Hh H1 Hsen Hc E) as [B _]. destruct (signs ex l Hs X Zlo Zhi Hb s H1 Hsen) as [S1 _].
  cbn [area] in EA. rewrite (area_loop l L) in EA. injection EA as <-. rewrite (area_edges l L) in *.
  replace (Rabs (edge_sum crs l) / 2) with (s * (edge_sum crs l / 2)).
  - replace (INR (length ss) * (h * h) - s * (edge_sum crs l / 2)) with (s * (s * (INR (length ss) * (h * h)) - edge_sum crs l / 2)) by (destruct H1 as [->| ->]; ring).
    rewrite Rabs_mult. replace (Rabs s) with 1 by (destruct H1 as [->| ->]; [now rewrite Rabs_R1|rewrite Rabs_left; lra]). lra.
  - destruct H1 as [->| ->]; [rewrite Rabs_pos_eq by lra; field|rewrite Rabs_left1 by lra; field].
Qed.
Print Assumptions C84_area.

(** The same for the volume, where x is at most X. *)
Theorem C84_volume : forall ex l o h ss V X Zlo Zhi c, 0 < h -> simple_but ex l -> crossed_at_most c l ->
  (forall v, In v l -> 0 <= fst v <= X /\ Zlo <= snd v <= Zhi) ->
  sample_space_2d mpl_inside l o h = Ok ss -> volume (SClosed l) = Ok V ->
  Rabs (total_volume ss - V) <= PI * (h / 2) * (2 * X * travel_x l + (2 * X + h / 2) * INR c * (Zhi - Zlo + h)) + 2 * PI * X * (INR (length ex) * (INR c + 1) * (h * h)).
Proof.
  intros ex l o h ss V X Zlo Zhi c Hh Hs Hc Hb E EV. pose proof PI_RGT_0 as Pp. pose proof Hs as [L _]. destruct (simple_sense ex l Hs) as (s & H1 & Hsen).
  destruct (cells_samples ex l Hs X Zlo Zhi Hb o h ss s c Hh H1 Hsen Hc E) as [_ B]. destruct (signs ex l Hs X Zlo Zhi Hb s H1 Hsen) as (S1 & S2 & S3).
  rewrite (volume_loop l L) in EV. injection EV as <-. rewrite (area_edges l L), (vol_edges l L) in *.
  assert (Q : (if Rltb 0 (edge_sum crs l) then edge_sum (mom fst) l else if Rltb (edge_sum crs l) 0 then - edge_sum (mom fst) l else 0) = s * edge_sum (mom fst) l).
  { destruct H1 as [->| ->].
    - destruct (Rltb_spec 0 (edge_sum crs l)); [ring|]. destruct (Rltb_spec (edge_sum crs l) 0); [lra|]. assert (edge_sum crs l = 0) by lra. rewrite H in S3. lra.
    - destruct (Rltb_spec 0 (edge_sum crs l)); [lra|]. destruct (Rltb_spec (edge_sum crs l) 0); [ring|]. assert (edge_sum crs l = 0) by lra. rewrite H in S3. lra. }
  rewrite Q. replace (total_volume ss - PI / 3 * (s * edge_sum (mom fst) l)) with (PI * s * (s * (total_volume ss / PI) - edge_sum (mom fst) l / 3)) by (destruct H1 as [->| ->]; field; lra).
  rewrite !Rabs_mult, (Rabs_pos_eq PI) by lra. replace (Rabs s) with 1 by (destruct H1 as [->| ->]; [now rewrite Rabs_R1|rewrite Rabs_left; lra]). rewrite Rmult_1_r. eapply Rle_trans; [apply Rmult_le_compat_l; [lra|exact B]|]. right. ring.
Qed.
Print Assumptions C84_volume.

(** As the cells shrink, their area and volume tend to those of the plasma, wherever the magnetic axis is. *)
Theorem C84_converges : forall ex l A V eps, simple_but ex l -> (forall v, In v l -> 0 <= fst v) -> area (SClosed l) = Ok A -> volume (SClosed l) = Ok V -> 0 < eps ->
  exists h0, 0 < h0 /\ forall o h ss, 0 < h <= h0 -> sample_space_2d mpl_inside l o h = Ok ss ->
    Rabs (INR (length ss) * (h * h) - A) < eps /\ Rabs (total_volume ss - V) < eps.
Proof.
  intros ex l A V eps Hs Hx EA EV He. pose proof PI_RGT_0 as Pp. pose proof Hs as [L _]. pose proof (loop_nonempty l L) as Ne.
  destruct (min_snd l Ne) as (va & Ia & Mi). destruct (max_snd l Ne) as (vb & Ib & Ma).
  destruct (max_snd (map swap l)) as (vc & Ic & Mc); [destruct l; [congruence|discriminate]|].
  assert (Hb : forall v, In v l -> 0 <= fst v <= snd vc /\ snd va <= snd v <= snd vb).
  { intros v Hv. split; [split; [now apply Hx|]|split; [now apply Mi|now apply Ma]]. apply (Mc (swap v)). now apply in_map. }
  destruct (box_order ex l Hs _ _ _ Hb) as [PX PZ]. set (X := snd vc) in *. set (H := snd vb - snd va). set (n := length l).
  pose proof (pos_INR n) as Pn. pose proof (travel_pos l) as PT. set (e := INR (length ex) * (INR n + 1)). assert (Pe : 0 <= e) by (apply Rmult_le_pos; [apply pos_INR|lra]).
  set (B1 := travel_x l + INR n * (H + 1) + e). set (C2 := 2 * X * travel_x l + (2 * X + 1) * INR n * (H + 1) + 2 * X * e). set (B2 := PI * C2).
  assert (N0 : 0 <= INR n * (H + 1)) by (apply Rmult_le_pos; unfold H; lra). assert (N1 : 0 <= B1) by (unfold B1; lra).
  assert (M1 : 0 <= 2 * X * travel_x l) by (apply Rmult_le_pos; lra). assert (M2 : 0 <= (2 * X + 1) * INR n * (H + 1)) by (rewrite Rmult_assoc; apply Rmult_le_pos; lra). assert (M3 : 0 <= 2 * X * e) by (apply Rmult_le_pos; lra).
  assert (N2 : 0 <= B2) by (unfold B2, C2; apply Rmult_le_pos; lra).
  exists (Rmin 1 (eps / (B1 + B2 + 1))). assert (P : 0 < eps / (B1 + B2 + 1)) by (apply Rdiv_lt_0_compat; lra). split; [apply Rmin_glb_lt; lra|].
  intros o h ss [Hh Hm] E. assert (Hh1 : h <= 1) by (eapply Rle_trans; [exact Hm|apply Rmin_l]).
  assert (Hh2 : h * (B1 + B2 + 1) <= eps). { apply Rle_trans with (eps / (B1 + B2 + 1) * (B1 + B2 + 1)); [apply Rmult_le_compat_r; [lra|]; eapply Rle_trans; [exact Hm|apply Rmin_r]|]. right. field. lra. }
  assert (Hc : crossed_at_most n l) by (intros z k; apply crossed_length).
  assert (Eh : e * (h * h) <= h * e) by (rewrite (Rmult_comm h e); apply Rmult_le_compat_l; nra).
  assert (Q1 : 0 <= h * B1) by (apply Rmult_le_pos; lra). assert (Q2 : 0 <= h * B2) by (apply Rmult_le_pos; lra).
  split.
  - eapply Rle_lt_trans; [apply (C84_area ex l o h ss A X (snd va) (snd vb) n Hh Hs Hc Hb E EA)|]. fold H e. set (u := INR n * (H + h)).
    assert (u <= INR n * (H + 1)) by (unfold u; apply Rmult_le_compat_l; lra). assert (0 <= u) by (unfold u; apply Rmult_le_pos; unfold H; lra).
    assert (h * (travel_x l + u + e) <= h * B1) by (apply Rmult_le_compat_l; unfold B1; lra). assert (0 <= h * (travel_x l + u)) by (apply Rmult_le_pos; lra). lra.
  - eapply Rle_lt_trans; [apply (C84_volume ex l o h ss V X (snd va) (snd vb) n Hh Hs Hc Hb E EV)|]. fold H e. set (u := (2 * X + h / 2) * INR n * (H + h)).
    assert (u <= (2 * X + 1) * INR n * (H + 1)) by (unfold u; rewrite !Rmult_assoc; apply Rmult_le_compat; [lra|apply Rmult_le_pos; unfold H; lra|lra|apply Rmult_le_compat_l; lra]).
    assert (0 <= u) by (unfold u; rewrite Rmult_assoc; apply Rmult_le_pos; [lra|]; apply Rmult_le_pos; unfold H; lra).
    assert (2 * X * (e * (h * h)) <= 2 * X * (h * e)) by (apply Rmult_le_compat_l; lra).
    assert (0 <= h * (2 * X * travel_x l + u)) by (apply Rmult_le_pos; lra). assert (h * (2 * X * travel_x l + u + 2 * X * e) <= h * C2) by (apply Rmult_le_compat_l; unfold C2; lra).
    assert (PI * (h / 2 * (2 * X * travel_x l + u) + 2 * X * (e * (h * h))) <= PI * (h * C2)) by (apply Rmult_le_compat_l; lra). unfold B2 in *. lra.
Qed.
Print Assumptions C84_converges.

(** For a convex plasma of width W and height H the area is off by at most h (W + H + h). *)
Theorem C84_convex : forall l o h ss A V X0 X1 Zlo Zhi, convex_polygon l -> 0 < h -> 0 <= X0 ->
  (forall v, In v l -> X0 <= fst v <= X1 /\ Zlo <= snd v <= Zhi) ->
  sample_space_2d mpl_inside l o h = Ok ss -> area (SClosed l) = Ok A -> volume (SClosed l) = Ok V ->
  Rabs (INR (length ss) * (h * h) - A) <= h * ((X1 - X0) + (Zhi - Zlo) + h) /\
  Rabs (total_volume ss - V) <= PI * h * (2 * X1 * (X1 - X0) + (2 * X1 + h / 2) * (Zhi - Zlo + h)).
Proof.
  intros l o h ss A V X0 X1 Zlo Zhi C Hh P0 Hb E EA EV. pose proof PI_RGT_0 as Pp. pose proof (convex_simple l C) as Hs. pose proof (convex_crossed l C) as Hc.
  pose proof (convex_travel l X0 X1 C (fun v Hv => proj1 (Hb v Hv))) as T.
  assert (Hb' : forall v, In v l -> 0 <= fst v <= X1 /\ Zlo <= snd v <= Zhi) by (intros v Hv; destruct (Hb v Hv); split; [lra|assumption]).
  destruct (box_order [] l Hs _ _ _ Hb') as [PX PZ]. change (INR 2) with (1 + 1) in *.
  split.
  - eapply Rle_trans; [apply (C84_area [] l o h ss A X1 Zlo Zhi 2 Hh Hs Hc Hb' E EA)|]. change (INR 2) with (1 + 1). change (INR (length (@nil (R * R)))) with 0. rewrite !Rmult_0_l, Rplus_0_r.
    replace (h * (X1 - X0 + (Zhi - Zlo) + h)) with (h / 2 * (2 * (X1 - X0) + (1 + 1) * (Zhi - Zlo + h))) by field. apply Rmult_le_compat_l; lra.
  - eapply Rle_trans; [apply (C84_volume [] l o h ss V X1 Zlo Zhi 2 Hh Hs Hc Hb' E EV)|]. change (INR 2) with (1 + 1). change (INR (length (@nil (R * R)))) with 0. rewrite !Rmult_0_l, Rmult_0_r, Rplus_0_r.
    replace (PI * h * (2 * X1 * (X1 - X0) + (2 * X1 + h / 2) * (Zhi - Zlo + h))) with (PI * (h / 2) * (2 * X1 * (2 * (X1 - X0)) + (2 * X1 + h / 2) * (1 + 1) * (Zhi - Zlo + h))) by field.
    apply Rmult_le_compat_l; [apply Rmult_le_pos; lra|]. apply Rplus_le_compat_r. apply Rmult_le_compat_l; lra.
Qed.
Print Assumptions C84_convex.

(** For every parameterised plasma of major radius R, minor radius a and elongation kappa. *)
Theorem C84_parameterised : forall i rho n c m h ss A V, shape i -> (4 <= n)%nat -> from_parameterisation (Fausser i) rho n c = Ok m -> 0 < h ->
  sample_space_2d mpl_inside (points (map_lcfs m)) (op_x (map_o_point m), op_z (map_o_point m)) h = Ok ss ->
  area (map_lcfs m) = Ok A -> volume (map_lcfs m) = Ok V ->
  Rabs (INR (length ss) * (h * h) - A) <= h * (2 * minor_radius i + 2 * (kappa i * minor_radius i) + h) /\
  Rabs (total_volume ss - V) <= PI * h * (4 * (r_0 i + minor_radius i) * minor_radius i + (2 * (r_0 i + minor_radius i) + h / 2) * (2 * (kappa i * minor_radius i) + h)).
Proof.
  intros i rho n c m h ss A V H Hn E Hh Es EA EV. destruct (o_point_of i rho n c m E) as (El & _ & _).
  pose proof (C69_fausser_convex i 1.0 n _ H ltac:(lra) Hn El) as C. pose proof (fausser_points i 1.0 n _ H ltac:(lia) El) as Ep.
  assert (Hb : forall v, In v (points (map_lcfs m)) -> r_0 i - minor_radius i <= fst v <= r_0 i + minor_radius i /\ z_0 i - kappa i * minor_radius i <= snd v <= z_0 i + kappa i * minor_radius i).
  { intros v Hv. destruct (C37_bounds i 1.0 n _ v H ltac:(lra) El Hv) as (_ & B1 & B2). apply abs_inv in B1, B2. replace (shafranov_shift i * (1 - 1.0 ^ 2)) with 0 in B1 by (cbn [pow]; lra). split; lra. }
  destruct (shape_facts i H) as (F1 & F2 & F3 & F4 & F5 & F6 & F7).
  assert (P0 : 0 <= r_0 i - minor_radius i) by lra.
  rewrite Ep in *. cbn [points] in *.
  destruct (C84_convex _ _ h ss A V _ _ _ _ C Hh P0 Hb Es EA EV) as [R1 R2]. split.
  - eapply Rle_trans; [exact R1|]. right. ring.
  - eapply Rle_trans; [exact R2|]. right. ring.
Qed.
Print Assumptions C84_parameterised.

(** A boundary drawn twice round is accepted, but none of its cells is sampled, while its area and volume are doubled. *)
Lemma edge_sum_app f l p m : edge_sum f (l ++ p :: m) = edge_sum f (l ++ [p]) + edge_sum f (p :: m).
Proof.
  induction l as [|q l IH]; [cbn [app]; change (edge_sum f [p]) with 0; ring|]. cbn [app]. destruct l as [|r l]; cbn [app] in *; [rewrite !edge_sum_cons; change (edge_sum f [p]) with 0; ring|]. rewrite !edge_sum_cons, IH. ring.
Qed.
Lemma parity_app f l p m : parity f (l ++ p :: m) = xorb (parity f (l ++ [p])) (parity f (p :: m)).
Proof.
  induction l as [|q l IH]; [cbn [app]; now rewrite xorb_false_l|]. cbn [app]. destruct l as [|r l]; cbn [app] in *; [rewrite !parity_cons; cbn; now rewrite xorb_false_r|]. now rewrite !parity_cons, IH, xorb_assoc.
Qed.
Lemma removelast_loop l : loop l -> exists q m, l = m ++ [q] /\ exists r, l = q :: r.
Proof. intros (p & r & -> & L). destruct (exists_last (l := p :: r)) as (m & x & E); [discriminate|]. exists x, m. split; [exact E|]. assert (x = p). { rewrite <- (last_last m x p), <- E, last_cons. exact L. } subst x. eauto. Qed.
Theorem C84_twice_round_refuted : forall l o h A V, loop l -> 0 < h -> area (SClosed l) = Ok A -> volume (SClosed l) = Ok V ->
  sample_space_2d mpl_inside (l ++ tl l) o h = Ok [] /\ (exists s, closed_flux_surface (l ++ tl l) = Ok s) /\
  area (SClosed (l ++ tl l)) = Ok (2 * A) /\ volume (SClosed (l ++ tl l)) = Ok (2 * V).
Proof.
  intros l o h A V L Hh EA EV. destruct (removelast_loop l L) as (q & m & E1 & r & E2). pose proof L as (q' & r' & E3 & Lr). rewrite E2 in E3. injection E3 as <- <-.
  assert (LL : loop (l ++ tl l)). { rewrite E2 at 1. cbn [app]. exists q, (r ++ tl l). split; [reflexivity|]. rewrite E2. cbn [tl]. destruct (exists_last (l := q :: r)) as (m' & x & E4); [discriminate|]. destruct r as [|y r]; [reflexivity|]. destruct (exists_last (l := y :: r)) as (m2 & x2 & E5); [discriminate|]. rewrite E5 in *. rewrite last_last in Lr. subst x2. now rewrite app_assoc, last_last. }
  assert (D : forall f, edge_sum f (l ++ tl l) = 2 * edge_sum f l). { intro f. replace (l ++ tl l) with (m ++ q :: r) by (rewrite E1 at 1; rewrite E2; cbn [tl]; now rewrite <- app_assoc). rewrite edge_sum_app, <- E1, <- E2. ring. }
  assert (Pf : forall f, parity f (l ++ tl l) = false). { intro f. replace (l ++ tl l) with (m ++ q :: r) by (rewrite E1 at 1; rewrite E2; cbn [tl]; now rewrite <- app_assoc). rewrite parity_app, <- E1, <- E2. apply xorb_nilpotent. }
  split; [|split; [|split]].
  - destruct (sample_cases mpl_inside (l ++ tl l) o h Hh) as [[E0 _]|(xs & zs & _ & _ & F)]; [rewrite E2 in E0; discriminate|]. rewrite F.
    assert (Q : forall ps, filter (mpl_inside (l ++ tl l)) ps = []) by (induction ps as [|p ps IH]; [reflexivity|]; cbn [filter]; rewrite (inside_parity _ p LL), Pf; exact IH). now rewrite Q.
  - exists (SClosed (l ++ tl l)). unfold closed_flux_surface. destruct LL as (p & k & -> & Lk). unfold is_closed. rewrite Lk. unfold isclose, Rminus. rewrite !Rplus_opp_r, Rabs_R0. destruct (Rleb_spec 0 1e-12); [reflexivity|lra].
  - cbn [area] in *. rewrite (area_loop _ LL), D, Rabs_mult, (Rabs_pos_eq 2) by lra. rewrite (area_loop l L) in EA. injection EA as <-. f_equal. field.
  - rewrite (volume_loop _ LL), !D. rewrite (volume_loop l L) in EV. injection EV as <-. f_equal. destruct (Rltb_spec 0 (2 * edge_sum crs l)), (Rltb_spec 0 (edge_sum crs l)); try lra. destruct (Rltb_spec (2 * edge_sum crs l) 0), (Rltb_spec (edge_sum crs l) 0); try lra.
Qed.
Print Assumptions C84_twice_round_refuted.

(** A plasma with an L-shaped (not convex) section meets the hypotheses of the general theorems; so does every convex one. *)
Definition ell : list (R * R) := [(1, 0); (3, 0); (3, 1); (2, 1); (2, 2); (1, 2); (1, 0)].
Example C84_hypotheses : simple ell /\ crossed_at_most 2 ell /\ area (SClosed ell) = Ok 3 /\ travel_x ell = 4 /\
  (exists V, volume (SClosed ell) = Ok V) /\ exists ss, sample_space_2d mpl_inside ell (3 / 2, 1) (1 / 10) = Ok ss.
Proof.
  assert (L : loop ell) by (now exists (1, 0), (tl ell)).
  split; [|split; [|split; [|split; [|split]]]].
  - split; [exact L|]. left. intros [x z] n _ W. apply winds_sum in W. unfold ell in W. rewrite !edge_sum_cons in W. unfold ww, goes_up, goes_down, at_or_above, turn in W. cbn [fst snd] in W. change (edge_sum _ [_]) with 0 in W.
    destruct (Rleb_spec z 0); [cbn [b2r negb andb] in W; left; apply eq_IZR; destruct (Rleb_spec z 1); [|lra]; destruct (Rleb_spec z 2); [|lra]; cbn [b2r negb andb] in W; lra|].
    destruct (Rleb_spec z 1).
    + destruct (Rleb_spec z 2); [|lra]. cbn [b2r negb andb] in W. destruct (Rleb_spec 0 ((3 - 3) * (z - 0) - (x - 3) * (1 - 0))), (Rltb_spec ((1 - 1) * (z - 2) - (x - 1) * (0 - 2)) 0); cbn [b2r negb andb] in W; try (left; apply eq_IZR; lra); try (right; apply eq_IZR; lra).
    + destruct (Rleb_spec z 2); cbn [b2r negb andb] in W.
      * destruct (Rleb_spec 0 ((2 - 2) * (z - 1) - (x - 2) * (2 - 1))), (Rltb_spec ((1 - 1) * (z - 2) - (x - 1) * (0 - 2)) 0); cbn [b2r negb andb] in W; try (left; apply eq_IZR; lra); try (right; apply eq_IZR; lra).
      * left. apply eq_IZR. lra.
  - intros z n W. apply crossed_sum in W. apply INR_le. rewrite W. unfold ell. rewrite !edge_sum_cons. change (edge_sum _ [_]) with 0. unfold sigma. cbn [fst snd].
    destruct (Rleb_spec z 0), (Rleb_spec z 1), (Rleb_spec z 2); cbn [b2r]; try lra; unfold Rabs; repeat destruct (Rcase_abs _); cbn; lra.
  - cbn [area]. rewrite (area_loop ell L). f_equal. unfold ell. rewrite !edge_sum_cons. change (edge_sum crs [_]) with 0. unfold crs. cbn [fst snd]. rewrite Rabs_pos_eq; lra.
  - cbn. unfold Rabs. repeat destruct (Rcase_abs _); lra.
  - rewrite (volume_loop ell L). eexists. reflexivity.
  - apply (C28_total mpl_inside ell (3 / 2, 1) (1 / 10)); [lra|discriminate].
Qed.
Example C84_parameterised_hypotheses : exists i m ss A V, shape i /\ from_parameterisation (Fausser i) [1 / 2; 1] 50 LINEAR = Ok m /\
  convex_polygon (points (map_lcfs m)) /\
  sample_space_2d mpl_inside (points (map_lcfs m)) (op_x (map_o_point m), op_z (map_o_point m)) (1 / 10) = Ok ss /\
  area (map_lcfs m) = Ok A /\ 0 < A /\ volume (map_lcfs m) = Ok V.
Proof.
  destruct C69_C73_example as (i & m & Sh & _ & Em & Hx & ss & E & _). destruct (o_point_of i _ 50 LINEAR m Em) as (El & _ & _).
  pose proof (C69_fausser_convex i 1.0 50 _ Sh ltac:(lra) ltac:(lia) El) as C. pose proof (fausser_points i 1.0 50 _ Sh ltac:(lia) El) as Ep.
  destruct (C69_area_centroid_volume _ C Hx) as (A & _ & v & EA & PA & _ & _ & _ & EV & _).
  exists i, m, ss, A, (PI * v). split; [exact Sh|]. split; [exact Em|]. split; [exact C|]. split; [exact E|]. rewrite Ep in *. cbn [points] in *. auto.
Qed.

(** A boundary with a notch from below: the cells left, right and above the tip of the notch are sampled, the cell at the tip is not. *)
Definition notched : list (R * R) := [(1, 0); (2, 1); (3, 0); (3, 2); (1, 2); (1, 0)].
Theorem C84_notch_refuted : exists l v, loop l /\ In v l /\ simple_but [v] l /\ ~ simple l /\ mpl_inside l v = false /\
  forall d, 0 < d < 1 -> mpl_inside l (fst v - d, snd v) = true /\ mpl_inside l (fst v + d, snd v) = true /\ mpl_inside l (fst v, snd v + d) = true.
Proof.
  assert (L : loop notched) by (now exists (1, 0), (tl notched)). exists notched, (2, 1).
  assert (V : mpl_inside notched (2, 1) = false).
  { rewrite (inside_parity _ _ L). unfold notched. rewrite !parity_cons, !crossing_turn. unfold goes_up, goes_down, at_or_above, turn. cbn [fst snd]. destruct (Rleb_spec 1 0); [lra|]. destruct (Rleb_spec 1 1); [|lra]. destruct (Rleb_spec 1 2); [|lra]. cbn [negb andb].
    destruct (Rleb_spec 0 ((2 - 1) * (1 - 0) - (2 - 1) * (1 - 0))); [|lra]. destruct (Rltb_spec ((3 - 2) * (1 - 1) - (2 - 2) * (0 - 1)) 0); [lra|]. destruct (Rleb_spec 0 ((3 - 3) * (1 - 0) - (2 - 3) * (2 - 0))); [|lra].
    destruct (Rltb_spec ((1 - 1) * (1 - 2) - (2 - 1) * (0 - 2)) 0); [lra|]. reflexivity. }
  split; [exact L|]. split; [right; now left|]. split; [|split; [|split; [exact V|]]].
  - split; [exact L|]. left. intros [x z] n Np W. assert (Np' : ~ (x = 2 /\ z = 1)) by (intros [-> ->]; apply Np; now left). clear Np. apply winds_sum in W. unfold notched in W. rewrite !edge_sum_cons in W. unfold ww, goes_up, goes_down, at_or_above, turn in W. cbn [fst snd] in W. change (edge_sum _ [_]) with 0 in W.
    destruct (Rleb_spec z 0); [destruct (Rleb_spec z 1); [|lra]; destruct (Rleb_spec z 2); [|lra]; cbn [b2r negb andb] in W; left; apply eq_IZR; lra|].
    destruct (Rleb_spec z 1).
    + destruct (Rleb_spec z 2); [|lra]. cbn [b2r negb andb] in W.
      destruct (Rleb_spec 0 ((2 - 1) * (z - 0) - (x - 1) * (1 - 0))), (Rltb_spec ((3 - 2) * (z - 1) - (x - 2) * (0 - 1)) 0), (Rleb_spec 0 ((3 - 3) * (z - 0) - (x - 3) * (2 - 0))), (Rltb_spec ((1 - 1) * (z - 2) - (x - 1) * (0 - 2)) 0); cbn [b2r negb andb] in W;
        try (left; apply eq_IZR; lra); try (right; apply eq_IZR; lra); exfalso; try lra; apply Np'; split; lra.
    + destruct (Rleb_spec z 2); cbn [b2r negb andb] in W; [|left; apply eq_IZR; lra].
      destruct (Rleb_spec 0 ((3 - 3) * (z - 0) - (x - 3) * (2 - 0))), (Rltb_spec ((1 - 1) * (z - 2) - (x - 1) * (0 - 2)) 0); cbn [b2r negb andb] in W; try (left; apply eq_IZR; lra); try (right; apply eq_IZR; lra).
  - intro S. destruct (simple_sense [] _ S) as (s & Hs & Hn). specialize (Hn (2, 1) (fun H => H)). rewrite V in Hn. cbn [b2r] in Hn. unfold notched in Hn. rewrite !edge_sum_cons in Hn. unfold ww, goes_up, goes_down, at_or_above, turn in Hn. cbn [fst snd] in Hn. change (edge_sum _ [_]) with 0 in Hn.
    destruct (Rleb_spec 1 0); [lra|]. destruct (Rleb_spec 1 1); [|lra]. destruct (Rleb_spec 1 2); [|lra]. cbn [negb andb] in Hn.
    destruct (Rleb_spec 0 ((2 - 1) * (1 - 0) - (2 - 1) * (1 - 0))); [|lra]. destruct (Rltb_spec ((3 - 2) * (1 - 1) - (2 - 2) * (0 - 1)) 0); [lra|]. destruct (Rleb_spec 0 ((3 - 3) * (1 - 0) - (2 - 3) * (2 - 0))); [|lra].
    destruct (Rltb_spec ((1 - 1) * (1 - 2) - (2 - 1) * (0 - 2)) 0); [lra|]. cbn [b2r] in Hn. destruct Hs as [->| ->]; lra.
  - intros d Hd. cbn [fst snd]. rewrite !(inside_parity _ _ L). unfold notched. rewrite !parity_cons, !crossing_turn. unfold goes_up, goes_down, at_or_above, turn. cbn [fst snd].
    destruct (Rleb_spec 1 0); [lra|]. destruct (Rleb_spec 1 1); [|lra]. destruct (Rleb_spec 1 2); [|lra]. destruct (Rleb_spec (1 + d) 0); [lra|]. destruct (Rleb_spec (1 + d) 1); [lra|]. destruct (Rleb_spec (1 + d) 2); [|lra]. cbn [negb andb]. split; [|split].
    + destruct (Rleb_spec 0 ((2 - 1) * (1 - 0) - (2 - d - 1) * (1 - 0))); [|lra]. destruct (Rltb_spec ((3 - 2) * (1 - 1) - (2 - d - 2) * (0 - 1)) 0); [|lra]. destruct (Rleb_spec 0 ((3 - 3) * (1 - 0) - (2 - d - 3) * (2 - 0))); [|lra].
      destruct (Rltb_spec ((1 - 1) * (1 - 2) - (2 - d - 1) * (0 - 2)) 0); [lra|]. reflexivity.
    + destruct (Rleb_spec 0 ((2 - 1) * (1 - 0) - (2 + d - 1) * (1 - 0))); [lra|]. destruct (Rltb_spec ((3 - 2) * (1 - 1) - (2 + d - 2) * (0 - 1)) 0); [lra|]. destruct (Rleb_spec 0 ((3 - 3) * (1 - 0) - (2 + d - 3) * (2 - 0))); [|lra].
      destruct (Rltb_spec ((1 - 1) * (1 - 2) - (2 + d - 1) * (0 - 2)) 0); [lra|]. reflexivity.
    + destruct (Rleb_spec 0 ((3 - 3) * (1 + d - 0) - (2 - 3) * (2 - 0))); [|lra]. destruct (Rltb_spec ((1 - 1) * (1 + d - 2) - (2 - 1) * (0 - 2)) 0); [lra|]. reflexivity.
Qed.
Print Assumptions C84_notch_refuted.
