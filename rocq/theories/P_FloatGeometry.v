(** C102: closed surfaces in the arithmetic the computer uses (binary64). *)
From Coq Require Import ZArith Bool Reals Lra Lia List Permutation.
From Coquelicot Require Import Coquelicot.
From Flocq Require Import Core.Core IEEE754.BinarySingleNaN.
From Verif Require Import Base FloatComp FloatCompProofs FloatCompAcc FloatSource SpecFloatSource FloatSourceProofs FloatSpace SpecFloatSpace FloatSpaceProofs PiProofs P_FloatSource P_FloatSpace.
From Verif Require Import FloatProfileProofs Geometry SpecGeometry GeometryProofs FloatGeometry SpecFloatGeometry FloatGeometryProofs FloatCentroidProofs P_Geometry.
Open Scope R_scope.
Local Notation bp := (bpow radix2).

(** ** The test of the ends *)
Lemma fsub_over (x y : f64) : is_finite x = true -> is_finite y = true -> bp 1024 <= Rabs (rnd (B2R x - B2R y)) -> exists s, fsub x y = B754_infinity s.
Proof.
  intros Fx Fy L. pose proof (Bminus_correct 53 1024 Hprec64 Hmax64 mode_NE x y Fx Fy) as C. rewrite fexp64 in C. change (round_mode mode_NE) with ZnearestE in C.
  rewrite Rlt_bool_false in C by exact L. destruct C as [C _]. exists (Bsign x). apply SF_inf. exact C.
Qed.
Lemma tol_val : is_finite f_tol = true /\ B2R f_tol = 4951760157141521 / 4951760157141521099596496896.
Proof.
  destruct (lit_value f_tol 4951760157141521 (-92)) as [A B]; [vm_compute; reflexivity|]. split; [exact A|]. rewrite B. change (bp (-92)) with (/ 4951760157141521099596496896). lra.
Qed.
Lemma isclose_val (a b : f64) : is_finite a = true -> is_finite b = true -> isclose64 f_tol a b = true <-> Rabs (rnd (B2R a - B2R b)) <= B2R f_tol.
Proof.
  intros Fa Fb. unfold isclose64. destruct tol_val as [Ft Vt]. set (t := fadd f_tol (fmul f0 (Babs b))).
  assert (Hz : is_finite (fmul f0 (Babs b)) = true /\ B2R (fmul f0 (Babs b)) = 0).
  { destruct b; try discriminate; split; reflexivity. }
  destruct Hz as [Fz Vz].
  assert (Ht : is_finite t = true /\ B2R t = B2R f_tol).
  { unfold t. destruct (fadd_cases f_tol (fmul f0 (Babs b)) Ft Fz) as [(_ & E & F)|(E & _)]; rewrite Vz, Rplus_0_r, rnd_id in E by apply B2R_fmt; [now split|]. pose proof (abs_B2R_lt_emax _ _ f_tol). unfold f64 in *. lra. }
  destruct Ht as [F' V']. rewrite Fb, andb_true_r, orb_true_iff. clearbody t.
  destruct (Rlt_or_le (Rabs (rnd (B2R a - B2R b))) (bp 1024)) as [L|L].
  - destruct (fsub_cases a b Fa Fb L) as [E F]. assert (Fd : is_finite (Babs (fsub a b)) = true) by now rewrite is_finite_Babs.
    rewrite (leb_val (Babs (fsub a b)) t Fd F'). rewrite (eqb_val a b Fa Fb). rewrite B2R_Babs. unfold f64 in *. rewrite E, V'. split; [intros [H|H]; [exact H|]|intro H; now left].
    rewrite H, Rminus_diag_eq, rnd_0, Rabs_R0 by reflexivity. rewrite Vt. lra.
  - destruct (fsub_over a b Fa Fb L) as [s E]. rewrite E. cbn [Babs]. split.
    + intros [H|H]; [destruct t; discriminate|]. apply (eqb_val a b Fa Fb) in H. rewrite H, Rminus_diag_eq, rnd_0, Rabs_R0 in L by reflexivity. pose proof (bpow_gt_0 radix2 1024). lra.
    + intro H. exfalso. assert (bp 0 <= bp 1024) by (apply bpow_le; lia). change (bp 0) with 1 in *. rewrite Vt in H. lra.
Qed.
Lemma abs_rnd x : Rabs (rnd x) = rnd (Rabs x).
Proof. symmetry. apply round_NE_abs. typeclasses eauto. Qed.
Lemma next_fmt : fmt (4951760157141522 / 4951760157141521099596496896).
Proof.
  replace (4951760157141522 / 4951760157141521099596496896) with (F2R (Float radix2 4951760157141522 (-92))).
  - apply generic_format_FLT. exists (Float radix2 4951760157141522 (-92)); [reflexivity|vm_compute; reflexivity|vm_compute; discriminate].
  - unfold F2R. cbn [Fnum Fexp]. change (bp (-92)) with (/ 4951760157141521099596496896). lra.
Qed.
Lemma isclose_lo (a b : f64) : is_finite a = true -> is_finite b = true -> Rabs (B2R a - B2R b) <= 4951760157141521 / 4951760157141521099596496896 -> isclose64 f_tol a b = true.
Proof.
  intros Fa Fb L. apply isclose_val; [exact Fa|exact Fb|]. rewrite abs_rnd. destruct tol_val as [Ft Vt]. rewrite <- Vt in L. rewrite <- (rnd_id (B2R f_tol)) by apply B2R_fmt. now apply rnd_mono.
Qed.
Lemma isclose_hi (a b : f64) : is_finite a = true -> is_finite b = true -> isclose64 f_tol a b = true -> Rabs (B2R a - B2R b) <= 4951760157141522 / 4951760157141521099596496896.
Proof.
  intros Fa Fb H. apply (isclose_val a b Fa Fb) in H. destruct (Rle_or_lt (Rabs (B2R a - B2R b)) (4951760157141522 / 4951760157141521099596496896)) as [L|L]; [exact L|].
  apply Rlt_le, rnd_mono in L. rewrite (rnd_id _ next_fmt), <- abs_rnd in L. destruct tol_val as [_ Vt]. rewrite Vt in H. lra.
Qed.

(** A surface is accepted if both coordinates of its ends agree to 1e-12, rejected if one is further apart; only in a band of relative width 2^-50 around
    1e-12 does rounding decide. *)
Theorem C102_closed_surfaces_only : forall p r, let q := last r p in
  (forall c, In c [p; q] -> finite (fst c) /\ finite (snd c)) ->
  let gx := Rabs (B2R (fst p) - B2R (fst q)) in let gz := Rabs (B2R (snd p) - B2R (snd q)) in
  (gx <= 1e-12 * (1 - / 2 ^ 50) /\ gz <= 1e-12 * (1 - / 2 ^ 50) -> closed_flux_surface64 (p :: r) = Ok (p :: r)) /\
  (gx > 1e-12 * (1 + / 2 ^ 50) \/ gz > 1e-12 * (1 + / 2 ^ 50) -> closed_flux_surface64 (p :: r) = Err EFluxSurface) /\
  closed_flux_surface64 [] = Err EIndex.
Proof.
  intros p r q Hc gx gz. destruct (Hc p) as [F1 F2]; [now left|]. destruct (Hc q) as [F3 F4]; [right; now left|]. replace (2 ^ 50) with 1125899906842624 by ring.
  unfold closed_flux_surface64, is_closed64. cbn [bind]. fold q. split; [|split; [|reflexivity]].
  - intros [A B]. rewrite (isclose_lo (fst p) (fst q) F1 F3), (isclose_lo (snd p) (snd q) F2 F4); [reflexivity|unfold gz in B; lra|unfold gx in A; lra].
  - intro H. destruct (isclose64 f_tol (fst p) (fst q)) eqn:E1; [|reflexivity]. destruct (isclose64 f_tol (snd p) (snd q)) eqn:E2; [|reflexivity]. exfalso.
    apply isclose_hi in E1; [|assumption..]. apply isclose_hi in E2; [|assumption..]. unfold gx, gz in H. lra.
Qed.
Print Assumptions C102_closed_surfaces_only.

Lemma surface_gap l s C : sane_points l C -> closed_flux_surface64 l = Ok s -> s = l /\ l <> [] /\ gap 1.1e-12 (fl l).
Proof.
  intros (HF & _ & _) H. unfold closed_flux_surface64, is_closed64 in H. destruct l as [|p r]; [discriminate|]. cbn [bind] in H.
  destruct (isclose64 f_tol (fst p) (fst (last r p))) eqn:E1; [|discriminate]. destruct (isclose64 f_tol (snd p) (snd (last r p))) eqn:E2; [|discriminate]. cbn [andb] in H. injection H as <-.
  split; [reflexivity|]. split; [discriminate|].
  assert (I2 : In (last r p) (p :: r)). { destruct r as [|a r']; [now left|]. right. destruct (@exists_last _ (a :: r') ltac:(discriminate)) as (L' & x & E). rewrite E, last_last. apply in_or_app. right; now left. }
  destruct (HF p) as (F1 & F2 & _); [now left|]. destruct (HF _ I2) as (F3 & F4 & _). apply isclose_hi in E1; [|assumption..]. apply isclose_hi in E2; [|assumption..].
  unfold gap, fl. cbn [map hd]. rewrite last_cons, (last_map point). unfold point. cbn [fst snd]. split; lra.
Qed.

(** ** Exact integrals *)
Lemma edge_integral_xz p q : edge_integral (fun x z => x * z) p q
  ((2 * (fst p * snd p) + fst p * snd q + fst q * snd p + 2 * (fst q * snd q)) * (snd q - snd p) / 6).
Proof.
  unfold edge_integral. set (dx := fst q - fst p). set (dz := snd q - snd p).
  set (F := fun t => (fst p * snd p * t + t * t / 2 * (fst p * dz + snd p * dx) + t * t * t / 3 * dx * dz) * dz).
  replace ((2 * (fst p * snd p) + fst p * snd q + fst q * snd p + 2 * (fst q * snd q)) * dz / 6) with (minus (F 1) (F 0))
    by (unfold F, dx, dz, minus, plus, opp; cbn; field).
  refine (@is_RInt_derive R_CompleteNormedModule F _ 0 1 _ _).
  - intros t _. unfold F. auto_derive; [trivial|field].
  - intros t _. apply continuity_pt_filterlim. reg.
Qed.
Lemma xz_dz L : loop L -> edge_sum (fun p q => (2 * (fst p * snd p) + fst p * snd q + fst q * snd p + 2 * (fst q * snd q)) * (snd q - snd p)) L = edge_sum (mom snd) L.
Proof. intro H. apply (loop_telescope _ _ (fun p => 2 * (fst p * snd p * snd p)) L H). intros. unfold mom, crs. ring. Qed.
Lemma center_sums l A X Z : l <> [] -> area_and_center (polygon l) A X Z ->
  exists s, (s = 1 \/ s = -1) /\ 0 < A /\ s * cyc crs (fl l) = 2 * A /\ s * cyc (mom fst) (fl l) = 6 * A * X /\ s * cyc (mom snd) (fl l) = 6 * A * Z.
Proof.
  intros N (s & a & mx & mz & Hs & Ia & Ix & Iz & EA & PA & EX & EZ). exists s. split; [exact Hs|]. split; [exact PA|]. pose proof (polygon_loop l N) as Lp.
  rewrite <- !polygon_sum by exact N.
  apply (path_integral_sum _ _ _ _ edge_integral_x) in Ia. apply (path_integral_sum _ _ _ _ edge_integral_x2) in Ix. apply (path_integral_sum _ _ _ _ edge_integral_xz) in Iz.
  assert (Ea : a = / 2 * edge_sum crs (polygon l)). { rewrite Ia, <- (x_dz _ Lp), <- edge_sum_scale. apply edge_sum_ext. intros; field. }
  assert (Ex : mx = / 3 * edge_sum (mom fst) (polygon l)). { rewrite Ix, <- (x2_dz _ Lp), <- edge_sum_scale. apply edge_sum_ext. intros; field. }
  assert (Ez : mz = / 6 * edge_sum (mom snd) (polygon l)). { rewrite Iz, <- (xz_dz _ Lp), <- edge_sum_scale. apply edge_sum_ext. intros; field. }
  assert (AX : A * X = s * mx / 2) by (rewrite EX; field; lra). assert (AZ : A * Z = s * mz) by (rewrite EZ; field; lra). clear EX EZ Ia Ix Iz.
  split; [rewrite EA, Ea; field|]. split; [rewrite Rmult_assoc, AX, Ex; field|rewrite Rmult_assoc, AZ, Ez; field].
Qed.
Lemma crs_flip p q : crs q p = - crs p q. Proof. unfold crs. ring. Qed.
Lemma mom_flip g p q : mom g q p = - mom g p q. Proof. unfold mom, crs. ring. Qed.
Lemma sane_rev l C : sane_points l C -> sane_points (rev l) C.
Proof. intros (A & B & D). split; [|now rewrite rev_length]. intros p Hp. apply A. now apply in_rev. Qed.
Lemma rev_ne {T} (l : list T) : l <> [] -> rev l <> [].
Proof. intros N E. apply N. rewrite <- (rev_involutive l), E. reflexivity. Qed.
Lemma slack_split n C : slack n C = INR n ^ 2 * C * C * uu + C * 1.1e-12.
Proof. unfold slack. rewrite uu_val. unfold Rdiv. ring. Qed.

Lemma round_part n C : 0 <= INR n ^ 2 * C * C * uu.
Proof. replace (INR n ^ 2 * C * C * uu) with ((INR n * C) * (INR n * C) * uu) by ring. apply Rmult_le_pos; [apply Rle_0_sqr|left; apply uu_small]. Qed.

(** ** Area *)
Theorem C102_area : forall dot l C A, scalar_product dot -> l <> [] -> sane_points l C ->
  path_integral (fun x _ => x) (polygon l) A ->
  exists a, area64 dot l = Ok a /\ finite a /\ Rabs (B2R a - Rabs A) <= 4 * (INR (length l) ^ 2 * C ^ 2 / 2 ^ 53).
Proof.
  intros dot l C A Hd N Hs Ia. destruct (area_near l C Hs N dot Hd) as (a & Ea & [Fa Na] & _). exists a. split; [exact Ea|]. split; [exact Fa|].
  pose proof (polygon_loop l N) as Lp. apply (path_integral_sum _ _ _ _ edge_integral_x) in Ia.
  assert (EA : A = / 2 * cyc crs (fl l)). { rewrite <- polygon_sum by exact N. rewrite Ia, <- (x_dz _ Lp), <- edge_sum_scale. apply edge_sum_ext. intros; field. }
  rewrite EA, Rabs_mult, (Rabs_pos_eq (/ 2)) by lra. replace (/ 2 * Rabs (cyc crs (fl l))) with (Rabs (cyc crs (fl l)) / 2) by lra. eapply Rle_trans; [exact Na|].
  pose proof (Hlen l C Hs N) as Hl. pose proof (PCC l C Hs) as PC2. rewrite uu_val. change (IZR (2 ^ 53)) with 9007199254740992. replace (2 ^ 53) with 9007199254740992 by ring.
  assert (0 < INR (length l) ^ 2 * (C * C)) by (apply Rmult_lt_0_compat; [nra|exact PC2]). lra.
Qed.
Print Assumptions C102_area.

(** ** Orientation *)
Theorem C102_orientation : forall l s C A, sane_points l C -> closed_flux_surface64 l = Ok s -> path_integral (fun x _ => x) (polygon l) A ->
  3 * slack (length l) C <= Rabs A -> check_ccw64 l = true <-> 0 < A.
Proof.
  intros l s C A Hs Hc Ia HA. destruct (surface_gap l s C Hs Hc) as (_ & N & G).
  pose proof (polygon_loop l N) as Lp. apply (path_integral_sum _ _ _ _ edge_integral_x) in Ia.
  assert (EA : cyc crs (fl l) = 2 * A). { rewrite <- polygon_sum by exact N. rewrite Ia, <- (x_dz _ Lp), <- edge_sum_scale. apply edge_sum_ext. intros; field. }
  rewrite slack_split in HA. pose proof (PC l C Hs) as P0. assert (0 < C * 1.1e-12) by (apply Rmult_lt_0_compat; lra).
  assert (0 <= INR (length l) ^ 2 * C * C * uu). { apply round_part. }
  rewrite (check_ok l C Hs N 1.1e-12 G), EA; [|rewrite EA, Rabs_mult, (Rabs_pos_eq 2) by lra; lra|lra].
  destruct (Rltb_spec 0 (2 * A)); split; intro; try easy; lra.
Qed.
Print Assumptions C102_orientation.

(** ** Centre of mass and volume *)
Lemma moment_near l C (h : f64 * f64 -> f64) (g : R * R -> R) : sane_points l C -> l <> [] -> gap 1.1e-12 (fl l) ->
  (forall p, g (point p) = B2R (h p)) -> (forall p, In p l -> is_finite (h p) = true /\ Rabs (B2R (h p)) <= C) ->
  let s := edge_loop64 (fun p q => fmul (fadd (h p) (h q)) (cross64 p q)) f0 l in
  is_finite s = true /\ Rabs (B2R s - cyc (mom g) (fl l)) <= 6 * C * slack (length l) C /\ Rabs (cyc (mom g) (fl l)) <= 4 * INR (length l) * (C * (C * C)).
Proof.
  intros Hs N G E Hh s. pose proof (Hlen l C Hs N) as Ln. pose proof (PC l C Hs) as P0. pose proof (PCCC l C Hs) as P3. pose proof uu_le as U. set (n := INR (length l)) in *.
  destruct (edge_loop_sum (fun p q => fmul (fadd (h p) (h q)) (cross64 p q)) (mom g) (C * (C * C)) 4 16.24 l (SC3 l C Hs) ltac:(lra) ltac:(lra) N) as [[F Es] Bs].
  { unfold edges. fold n. lra. } { intros p q. now apply mom_near. }
  fold s in F, Es. unfold edges in Es, Bs. fold n in Es, Bs.
  assert (Hg : forall p, In p (fl l) -> Rabs (g p) <= C). { intros p Hp. apply in_map_iff in Hp as (p' & <- & Hp'). rewrite E. now apply Hh. }
  pose proof (closing_mom g C 1.1e-12 (fl l) (fl_ne l N) (box l C Hs) Hg G) as Cl. split; [exact F|]. split.
  - rewrite slack_split. fold n. unfold cyc. replace (B2R s - (edge_sum (mom g) (fl l) + mom g (last (fl l) o2) (hd o2 (fl l)))) with ((B2R s - edge_sum (mom g) (fl l)) - mom g (last (fl l) o2) (hd o2 (fl l))) by ring.
    apply Rle_trans with (6 * n ^ 2 * (uu * (C * (C * C))) + 4 * (C * C * 1.1e-12)).
    + apply abs_sub_le; [|exact Cl]. eapply Rle_trans; [exact Es|]. apply Rmult_le_compat_r; [apply Rmult_le_pos; lra|]. pose proof (Rle_0_sqr (n - 2.1)) as Sq. unfold Rsqr in Sq. lra.
    + pose proof (PCC l C Hs) as P2. lra.
  - unfold cyc. replace (4 * n * (C * (C * C))) with (4 * (n - 1) * (C * (C * C)) + (C + C) * (2 * (C * C))) by ring. apply abs_add_le; [exact Bs|]. unfold mom. pose proof (last_in _ (fl_ne l N)) as I1. pose proof (hd_in _ (fl_ne l N)) as I2.
    apply abs_mul_le; [apply abs_add_le; now apply Hg|]. destruct (box l C Hs _ I1), (box l C Hs _ I2). now apply cross_le.
Qed.

(** The centre of a polygon that runs counter-clockwise. *)
Lemma scale_in x a b : bp a <= x <= bp b -> (-200 <= a)%Z -> (b <= 200)%Z -> scale x.
Proof. intros [H1 H2] La Lb. split; [eapply Rle_trans; [|exact H1]|eapply Rle_trans; [exact H2|]]; now apply bpow_le. Qed.
Lemma scales n C A X : bp (-50) <= C <= bp 50 -> 1 <= n <= bp 20 -> 110e-12 * C <= A -> A <= n * (C * C) -> 6 * A * Rabs X <= 4 * n * (C * (C * C)) ->
  scale A /\ scale (C + Rabs X) /\ scale (A * (C + Rabs X)).
Proof.
  intros HC Hn LA UA HX. pose proof (bpow_gt_0 radix2 (-50)) as Q. assert (P0 : 0 < C) by lra. pose proof (Rabs_pos X) as PX.
  assert (T : bp (-34) <= 110e-12). { change (bp (-34)) with (/ 17179869184). lra. }
  assert (LA' : bp (-34) * C <= A). { eapply Rle_trans; [|exact LA]. apply Rmult_le_compat_r; lra. }
  assert (LA2 : bp (-84) <= A). { eapply Rle_trans; [|exact LA']. replace (bp (-84)) with (bp (-34) * bp (-50)) by apply bp_mul. apply Rmult_le_compat_l; [apply bpow_ge_0|lra]. }
  assert (C2 : C * C <= bp 100). { replace (bp 100) with (bp 50 * bp 50) by apply bp_mul. apply Rmult_le_compat; lra. }
  assert (P2 : 0 < C * C) by now apply Rmult_lt_0_compat.
  assert (U2 : n * (C * C) <= bp 120). { replace (bp 120) with (bp 20 * bp 100) by apply bp_mul. apply Rmult_le_compat; lra. }
  assert (U3 : n * (C * (C * C)) <= bp 170). { replace (n * (C * (C * C))) with (n * (C * C) * C) by ring. replace (bp 170) with (bp 120 * bp 50) by apply bp_mul. apply Rmult_le_compat; nra. }
  pose proof (bpow_gt_0 radix2 (-84)) as Q84. pose proof (bpow_gt_0 radix2 170) as Q170. assert (PA : 0 < A) by lra.
  assert (AX : A * Rabs X <= bp 170) by lra.
  assert (AC : A * C <= bp 170). { eapply Rle_trans; [|exact U3]. replace (n * (C * (C * C))) with (n * (C * C) * C) by ring. apply Rmult_le_compat_r; lra. }
  split; [apply (scale_in A (-84) 120); [lra|lia|lia]|]. split.
  - apply (scale_in _ (-50) 175); [|lia|lia]. split; [lra|].
    assert (HX' : 6 * (bp (-34) * C) * Rabs X <= 4 * n * (C * (C * C))). { eapply Rle_trans; [|exact HX]. apply Rmult_le_compat_r; [exact PX|]. lra. }
    assert (XX : bp (-34) * Rabs X <= n * (C * C)). { apply (Rmult_le_reg_r C); [exact P0|]. assert (0 <= bp (-34) * C * Rabs X) by (apply Rmult_le_pos; [apply Rmult_le_pos; [apply bpow_ge_0|lra]|exact PX]). lra. }
    assert (XX' : Rabs X <= bp 154). { apply (Rmult_le_reg_l (bp (-34))); [apply bpow_gt_0|]. replace (bp (-34) * bp 154) with (bp 120) by (symmetry; apply bp_mul). lra. }
    assert (bp 50 <= bp 174) by (apply bpow_le; lia). assert (bp 154 <= bp 174) by (apply bpow_le; lia). replace (bp 175) with (bp 1 * bp 174) by apply bp_mul. change (bp 1) with 2. lra.
  - apply (scale_in _ (-134) 171); [|lia|lia]. split.
    + apply Rle_trans with (A * C); [|apply Rmult_le_compat_l; lra]. replace (bp (-134)) with (bp (-84) * bp (-50)) by apply bp_mul. apply Rmult_le_compat; lra.
    + replace (bp 171) with (bp 1 * bp 170) by apply bp_mul. change (bp 1) with 2. lra.
Qed.
Lemma core dot l C A X Z : scalar_product dot -> sane_points l C -> l <> [] -> gap 1.1e-12 (fl l) ->
  0 < A -> 100 * slack (length l) C <= A -> cyc crs (fl l) = 2 * A -> cyc (mom fst) (fl l) = 6 * A * X -> cyc (mom snd) (fl l) = 6 * A * Z ->
  exists a cx cz, get_area_2d64 dot l = Ok a /\ is_finite a = true /\ Rabs (B2R a - A) <= 3.1 * slack (length l) C /\ centroid_from64 dot l = Ok (cx, cz) /\
    is_finite cx = true /\ Rabs (B2R cx - X) <= (2.2 * C + 5.5 * Rabs X) * (slack (length l) C / A) /\
    is_finite cz = true /\ Rabs (B2R cz - Z) <= (2.2 * C + 5.5 * Rabs Z) * (slack (length l) C / A) /\
    uu * A <= slack (length l) C /\ scale A /\ scale (A * (C + Rabs X)).
Proof.
  intros Hd Hs N G PA HA EA EX EZ. pose proof (Hlen l C Hs N) as Ln. pose proof (PC l C Hs) as P0. pose proof (PCC l C Hs) as P2. pose proof uu_le as U.
  destruct (area_near l C Hs N dot Hd) as (a & Ea & [Fa Na] & Ba). rewrite EA, (Rabs_pos_eq (2 * A)) in Na, Ba by lra. replace (2 * A / 2) with A in Na by field.
  assert (HF' := proj1 Hs).
  destruct (moment_near l C fst fst Hs N G) as (Fx & Ex & Bx); [reflexivity|intros p Hp; destruct (HF' p Hp) as (? & ? & ? & ?); now split|].
  destruct (moment_near l C snd snd Hs N G) as (Fz & Ez & Bz); [reflexivity|intros p Hp; destruct (HF' p Hp) as (? & ? & ? & ?); now split|].
  rewrite EX in Ex, Bx. rewrite EZ in Ez, Bz. set (n := INR (length l)) in *. set (sg := slack (length l) C) in *.
  set (sx := edge_loop64 (fun p q => fmul (fadd (fst p) (fst q)) (cross64 p q)) f0 l) in *. set (sz := edge_loop64 (fun p q => fmul (fadd (snd p) (snd q)) (cross64 p q)) f0 l) in *.
  assert (Esg : sg = n ^ 2 * C * C * uu + C * 1.1e-12) by apply slack_split.
  assert (P4 : 0 < uu * (C * C)) by (apply Rmult_lt_0_compat; lra).
  assert (Q1 : n * (uu * (C * C)) <= n ^ 2 * (uu * (C * C))) by (apply Rmult_le_compat_r; [lra|nra]). assert (P5 : 0 < n * (uu * (C * C))) by (apply Rmult_lt_0_compat; lra).
  assert (US : uu * A <= sg). { apply Rle_trans with (uu * (n * (C * C))); [apply Rmult_le_compat_l; lra|]. lra. }
  assert (Da : Rabs (B2R a - A) <= 3.1 * sg) by lra.
  assert (LA : 110e-12 * C <= A) by lra.
  assert (AX : 6 * A * Rabs X <= 4 * n * (C * (C * C))). { rewrite Rabs_mult, (Rabs_pos_eq (6 * A)) in Bx by lra. exact Bx. }
  assert (AZ : 6 * A * Rabs Z <= 4 * n * (C * (C * C))). { rewrite Rabs_mult, (Rabs_pos_eq (6 * A)) in Bz by lra. exact Bz. }
  assert (Ln' : 1 <= n <= bp 20) by (change (bp 20) with 1048576; exact Ln).
  destruct (scales n C A X (HC l C Hs) Ln' LA ltac:(lra) AX) as (S1 & S2 & S3). destruct (scales n C A Z (HC l C Hs) Ln' LA ltac:(lra) AZ) as (_ & S4 & _).
  destruct (quot_ok C A X sg a sx P0 PA US HA Fa Da Fx Ex S1 S2) as [Fq Eq]. destruct (quot_ok C A Z sg a sz P0 PA US HA Fa Da Fz Ez S1 S4) as [Fr Er].
  exists a, (fdiv sx (fmul (f64_of_Z 6) a)), (fdiv sz (fmul (f64_of_Z 6) a)). split; [exact Ea|]. split; [exact Fa|]. split; [exact Da|]. split.
  - unfold centroid_from64. rewrite Ea. cbn [bind]. fold sx sz. assert (Nz : Beqb a f0 = false). { apply eqb_val_f; [exact Fa|reflexivity|]. change (B2R f0) with 0. apply Rabs_le_inv in Da. lra. } now rewrite Nz.
  - repeat (split; [assumption|]). assumption.
Qed.
Lemma slack_nonneg n C : 0 < C -> 0 < slack n C.
Proof.
  intro P0. rewrite slack_split. assert (0 < C * 1.1e-12) by (apply Rmult_lt_0_compat; lra). assert (0 <= INR n ^ 2 * C * C * uu); [|lra].
  apply round_part.
Qed.
Lemma area_rev dot l C A : scalar_product dot -> sane_points l C -> l <> [] -> 0 < A -> Rabs (cyc crs (fl l)) = 2 * A ->
  exists a, get_area_2d64 dot l = Ok a /\ is_finite a = true /\ Rabs (B2R a - A) <= 3.1 * slack (length l) C.
Proof.
  intros Hd Hs N PA EA. destruct (area_near l C Hs N dot Hd) as (a & Ea & [Fa Na] & _). exists a. split; [exact Ea|]. split; [exact Fa|]. rewrite EA in Na. replace (2 * A / 2) with A in Na by field.
  eapply Rle_trans; [exact Na|]. rewrite slack_split. pose proof (PC l C Hs) as P0. assert (0 < C * 1.1e-12) by (apply Rmult_lt_0_compat; lra). lra.
Qed.
Lemma center_both dot l s C A X Z : scalar_product dot -> sane_points l C -> closed_flux_surface64 l = Ok s -> area_and_center (polygon l) A X Z -> 100 * slack (length l) C <= A ->
  exists a cx cz, area64 dot l = Ok a /\ is_finite a = true /\ Rabs (B2R a - A) <= 3.1 * slack (length l) C /\ center_of_mass64 dot l = Ok (cx, cz) /\
    is_finite cx = true /\ Rabs (B2R cx - X) <= (2.2 * C + 5.5 * Rabs X) * (slack (length l) C / A) /\
    is_finite cz = true /\ Rabs (B2R cz - Z) <= (2.2 * C + 5.5 * Rabs Z) * (slack (length l) C / A) /\
    uu * A <= slack (length l) C /\ scale A /\ scale (A * (C + Rabs X)).
Proof.
  intros Hd Hs Hc HA Hk. destruct (surface_gap l s C Hs Hc) as (_ & N & G). destruct (center_sums l A X Z N HA) as (sn & Hsn & PA & E1 & E2 & E3).
  pose proof (PC l C Hs) as P0. pose proof (slack_nonneg (length l) C P0) as Psl.
  unfold area64, center_of_mass64, get_centroid_2d64.
  assert (Ck : check_ccw64 l = Rltb 0 (cyc crs (fl l))).
  { apply (check_ok l C Hs N 1.1e-12 G); [|lra]. rewrite slack_split in *. destruct Hsn as [-> | ->]; [rewrite Rabs_pos_eq|rewrite Rabs_left]; lra. }
  rewrite Ck. destruct Hsn as [-> | ->].
  - destruct (Rltb_spec 0 (cyc crs (fl l))) as [_|H]; [|lra]. apply core; auto; lra.
  - destruct (Rltb_spec 0 (cyc crs (fl l))) as [H|_]; [lra|].
    pose proof (fl_ne l N) as N'. assert (E : forall f, (forall p q, f q p = - f p q) -> cyc f (fl (rev l)) = - cyc f (fl l)).
    { intros f Hf. rewrite fl_rev, cyc_rev by exact N'. apply cyc_opp. intros; apply Hf. }
    destruct (core dot (rev l) C A X Z Hd (sane_rev l C Hs) (rev_ne l N)) as (a' & cx & cz & _ & _ & _ & H); try exact PA.
    + rewrite fl_rev. now apply gap_rev.
    + now rewrite rev_length.
    + rewrite (E crs crs_flip). lra.
    + rewrite (E (mom fst) (mom_flip fst)). lra.
    + rewrite (E (mom snd) (mom_flip snd)). lra.
    + rewrite rev_length in H. destruct (area_rev dot l C A Hd Hs N PA) as (a & Ea & Fa & Da); [rewrite Rabs_left; lra|].
      exists a, cx, cz. split; [exact Ea|]. split; [exact Fa|]. split; [exact Da|]. exact H.
Qed.

(** If the area is well above what rounding and the gap leave undetermined, the centre of mass is right. *)
Theorem C102_center_of_mass : forall dot l s C A X Z, scalar_product dot -> sane_points l C -> closed_flux_surface64 l = Ok s ->
  area_and_center (polygon l) A X Z -> 100 * slack (length l) C <= A ->
  exists cx cz, center_of_mass64 dot l = Ok (cx, cz) /\ finite cx /\ finite cz /\
    Rabs (B2R cx - X) <= (3 * C + 6 * Rabs X) * (slack (length l) C / A) /\ Rabs (B2R cz - Z) <= (3 * C + 6 * Rabs Z) * (slack (length l) C / A).
Proof.
  intros dot l s C A X Z Hd Hs Hc HA Hk. destruct (center_both dot l s C A X Z Hd Hs Hc HA Hk) as (a & cx & cz & _ & _ & _ & Ec & Fx & Ex & Fz & Ez & _).
  exists cx, cz. split; [exact Ec|]. split; [exact Fx|]. split; [exact Fz|]. pose proof (PC l C Hs) as P0. pose proof (slack_nonneg (length l) C P0) as Psl.
  assert (0 < slack (length l) C / A) by (apply Rdiv_lt_0_compat; lra). pose proof (Rabs_pos X). pose proof (Rabs_pos Z).
  split; [eapply Rle_trans; [exact Ex|]|eapply Rle_trans; [exact Ez|]]; apply Rmult_le_compat_r; lra.
Qed.
Print Assumptions C102_center_of_mass.

(** And so is the volume, 2 pi X A. *)
Theorem C102_volume : forall dot l s C A X Z, scalar_product dot -> sane_points l C -> closed_flux_surface64 l = Ok s ->
  area_and_center (polygon l) A X Z -> 100 * slack (length l) C <= A ->
  exists v, volume64 dot l = Ok v /\ finite v /\ Rabs (B2R v - 2 * PI * X * A) <= (25 * C + 85 * Rabs X) * slack (length l) C.
Proof.
  intros dot l s C A X Z Hd Hs Hc HA Hk. destruct (center_both dot l s C A X Z Hd Hs Hc HA Hk) as (a & cx & cz & Ea & Fa & Da & Ec & Fx & Ex & _ & _ & US & S1 & S3).
  pose proof (PC l C Hs) as P0. pose proof (slack_nonneg (length l) C P0) as Psl.
  destruct (revolve_ok C A X (slack (length l) C) a cx P0 ltac:(lra) US Hk Fa Da Fx Ex S1 S3) as [Fv Ev].
  eexists. split; [unfold volume64; rewrite Ea; cbn [bind]; rewrite Ec; cbn [bind fst]; reflexivity|]. split; [exact Fv|]. replace (2 * PI * X * A) with (2 * PI * A * X) by ring. exact Ev.
Qed.
Print Assumptions C102_volume.

(** For star-shaped surfaces, as flux surfaces are, the errors are a multiple of C slack / A and C slack: the centre is within the box of the points. *)
Lemma center_in_box l C A X Z o : sane_points l C -> l <> [] -> star_shaped (polygon l) o -> area_and_center (polygon l) A X Z -> Rabs X <= C /\ Rabs Z <= C.
Proof.
  intros Hs N St HA. destruct (center_sums l A X Z N HA) as (s & Hsn & PA & E1 & E2 & E3). pose proof (polygon_loop l N) as Lp. rewrite <- !polygon_sum in E1, E2, E3 by exact N.
  assert (Nz : edge_sum crs (polygon l) <> 0) by (intro E; rewrite E, Rmult_0_r in E1; lra).
  assert (Hb : forall p, In p (polygon l) -> - C <= fst p <= C /\ - C <= snd p <= C).
  { intros p Hp. destruct (polygon_ne l N) as (a & r & El & Ep). rewrite Ep in Hp. assert (Hi : In p (fl l)). { rewrite El. destruct Hp as [<-|Hp]; [now left|]. apply in_app_or in Hp as [Hp|[<-|[]]]; [now right|now left]. }
    destruct (box l C Hs p Hi) as [H1 H2]. apply Rabs_le_inv in H1, H2. now split. }
  pose proof (centroid_loop (polygon l) Lp Nz) as Ec. pose proof (area_loop (polygon l) Lp) as Ea.
  pose proof (C35_in_bounding_box (polygon l) o _ _ (- C) C (- C) C Lp St Ea ltac:(pose proof (Rabs_pos_lt _ Nz); lra) Ec Hb) as [B1 B2]. cbn [fst snd] in B1, B2.
  assert (EX : X = edge_sum (mom fst) (polygon l) / (3 * edge_sum crs (polygon l))).
  { apply (Rmult_eq_reg_l (6 * A)); [|lra]. rewrite <- E2. replace A with (s * edge_sum crs (polygon l) / 2) by lra. field. exact Nz. }
  assert (EZ : Z = edge_sum (mom snd) (polygon l) / (3 * edge_sum crs (polygon l))).
  { apply (Rmult_eq_reg_l (6 * A)); [|lra]. rewrite <- E3. replace A with (s * edge_sum crs (polygon l) / 2) by lra. field. exact Nz. }
  rewrite EX, EZ. split; apply Rabs_le; assumption.
Qed.
Theorem C102_star_shaped : forall dot l s C A X Z o, scalar_product dot -> sane_points l C -> closed_flux_surface64 l = Ok s -> star_shaped (polygon l) o ->
  area_and_center (polygon l) A X Z -> 100 * slack (length l) C <= A ->
  exists cx cz v, center_of_mass64 dot l = Ok (cx, cz) /\ volume64 dot l = Ok v /\ finite cx /\ finite cz /\ finite v /\
    Rabs (B2R cx - X) <= 9 * C * (slack (length l) C / A) /\ Rabs (B2R cz - Z) <= 9 * C * (slack (length l) C / A) /\
    Rabs (B2R v - 2 * PI * X * A) <= 110 * C * slack (length l) C.
Proof.
  intros dot l s C A X Z o Hd Hs Hc St HA Hk. destruct (surface_gap l s C Hs Hc) as (_ & N & _). destruct (center_in_box l C A X Z o Hs N St HA) as [BX BZ].
  destruct (C102_center_of_mass dot l s C A X Z Hd Hs Hc HA Hk) as (cx & cz & Ec & Fx & Fz & Ex & Ez). destruct (C102_volume dot l s C A X Z Hd Hs Hc HA Hk) as (v & Ev & Fv & Dv).
  exists cx, cz, v. repeat (split; [assumption|]). pose proof (PC l C Hs) as P0. pose proof (slack_nonneg (length l) C P0) as Psl. assert (0 < slack (length l) C / A) by (apply Rdiv_lt_0_compat; lra).
  split; [eapply Rle_trans; [exact Ex|]; apply Rmult_le_compat_r; lra|]. split; [eapply Rle_trans; [exact Ez|]; apply Rmult_le_compat_r; lra|].
  eapply Rle_trans; [exact Dv|]. apply Rmult_le_compat_r; lra.
Qed.
Print Assumptions C102_star_shaped.

(** ** The condition on the area is needed *)
Definition dot_lr (x y : list f64) : f64 := fold_left (fun a p => fadd a (fmul (fst p) (snd p))) (combine x y) f0.
Lemma dot_lr_ok : scalar_product dot_lr.
Proof.
  assert (H : forall l l0 a, dots l0 a -> dots (l0 ++ l) (fold_left (fun a p => fadd a (fmul (fst p) (snd p))) l a)).
  { induction l as [|[x y] l IH]; intros l0 a D; cbn [fold_left]; [now rewrite app_nil_r|].
    replace (l0 ++ (x, y) :: l) with ((l0 ++ [(x, y)]) ++ l) by now rewrite <- app_assoc. apply IH. cbn [fst snd]. apply (dots_add _ l0 [(x, y)]); [apply Permutation_refl|exact D|constructor]. }
  intros x y _. unfold dot_lr. apply (H _ [] f0). now constructor.
Qed.
Definition tiny (k : Z) : f64 := binary_normalize 53 1024 Hprec64 Hmax64 mode_NE (2 ^ 27 + k) (-27) false.
Definition thin : list (f64 * f64) := [(tiny 5, tiny 6); (tiny 6, tiny 1); (tiny 6, tiny 3); (tiny 5, tiny 6)].
Lemma tiny_val k : (0 <= k < 100)%Z -> is_finite (tiny k) = true /\ B2R (tiny k) = 1 + IZR k / 134217728.
Proof.
  intro Hk. unfold tiny. pose proof (normalize_exact (2 ^ 27 + k) (-27) false) as H.
  destruct H as [F V]; [lia|lia|]. split; [exact F|]. rewrite V. rewrite plus_IZR. change (IZR (2 ^ 27)) with 134217728. change (bp (-27)) with (/ 134217728). field.
Qed.
Lemma neg_bool (r : res f64) : match r with Ok v => Bltb v f0 && is_finite v | _ => false end = true -> exists v, r = Ok v /\ finite v /\ B2R v < 0.
Proof.
  destruct r as [v| |]; try discriminate. intro H. apply andb_true_iff in H as [H F]. exists v. split; [reflexivity|]. split; [exact F|]. apply (ltb_val v f0 F eq_refl) in H. exact H.
Qed.
Lemma closed_by (l : list (f64 * f64)) : match is_closed64 l with Ok b => b | _ => false end = true -> closed_flux_surface64 l = Ok l.
Proof. unfold closed_flux_surface64. destruct (is_closed64 l) as [[|]| |]; try discriminate. reflexivity. Qed.
(** A thin triangle, well away from the axis, is given a negative volume: rounding turns its orientation round. *)
Theorem C102_thin_surface_refuted : ~ (forall dot l s A X Z v, scalar_product dot -> (forall p, In p l -> 1 <= B2R (fst p) <= 2 /\ 1 <= B2R (snd p) <= 2) ->
  closed_flux_surface64 l = Ok s -> area_and_center (polygon l) A X Z -> volume64 dot l = Ok v -> 0 <= B2R v).
Proof.
  intro H. destruct (neg_bool (volume64 dot_lr thin)) as (v & Ev & _ & Nv); [vm_compute; reflexivity|].
  assert (Pl : map point thin = [(1 + 5 / 134217728, 1 + 6 / 134217728); (1 + 6 / 134217728, 1 + 1 / 134217728); (1 + 6 / 134217728, 1 + 3 / 134217728); (1 + 5 / 134217728, 1 + 6 / 134217728)]).
  { unfold thin, point. cbn [map fst snd]. rewrite (proj2 (tiny_val 5 ltac:(lia))), (proj2 (tiny_val 6 ltac:(lia))), (proj2 (tiny_val 1 ltac:(lia))), (proj2 (tiny_val 3 ltac:(lia))). reflexivity. }
  assert (Hp : polygon thin = map point thin ++ [(1 + 5 / 134217728, 1 + 6 / 134217728)]) by (unfold polygon; rewrite Pl; reflexivity).
  set (L := polygon thin) in *. rewrite Pl in Hp. cbn [app] in Hp.
  set (fa := edge_sum (fun p q : R * R => (fst p + fst q) * (snd q - snd p) / 2) L).
  assert (Pa : 0 < fa). { unfold fa. rewrite Hp. cbn [edge_sum fst snd]. lra. }
  assert (B : B2R v >= 0); [|lra]. apply Rle_ge.
  assert (Ac : exists X Z, area_and_center L fa X Z).
  { assert (Ne : exists p r, L = p :: r) by (rewrite Hp; eauto). destruct Ne as (p & r & Lr). do 2 eexists. exists 1, fa. do 2 eexists. split; [now left|].
    split; [unfold fa; rewrite Lr; apply (path_integral_ex _ _ _ _ edge_integral_x)|]. split; [rewrite Lr; apply (path_integral_ex _ _ _ _ edge_integral_x2)|]. split; [rewrite Lr; apply (path_integral_ex _ _ _ _ edge_integral_xz)|].
    split; [symmetry; apply Rmult_1_l|]. split; [exact Pa|]. split; reflexivity. }
  destruct Ac as (X & Z & Ac). apply (H dot_lr thin thin fa X Z v dot_lr_ok); [| |exact Ac|exact Ev].
  - intros p Hi. apply (in_map point) in Hi. rewrite Pl in Hi. unfold point in Hi.
    destruct Hi as [E|[E|[E|[E|[]]]]]; apply pair_equal_spec in E as [E1 E2]; unfold f64 in *; rewrite <- E1, <- E2; repeat split; lra.
  - apply closed_by. vm_compute. reflexivity.
Qed.
Print Assumptions C102_thin_surface_refuted.

(** The hypotheses hold: a square of 2 m at 3 m from the axis. *)
Definition zpt (p : Z * Z) : f64 * f64 := (f64_of_Z (fst p), f64_of_Z (snd p)).
Definition square_loop : list (f64 * f64) := map zpt [(2, -1); (4, -1); (4, 1); (2, 1); (2, -1)]%Z.
Example C102_hypotheses : scalar_product dot_lr /\ sane_points square_loop 4 /\ closed_flux_surface64 square_loop = Ok square_loop /\
  star_shaped (polygon square_loop) (3, 0) /\ area_and_center (polygon square_loop) 4 3 0 /\ 100 * slack (length square_loop) 4 <= 4.
Proof.
  assert (V : forall k, (Z.abs k < 2 ^ 53)%Z -> finite (f64_of_Z k) /\ B2R (f64_of_Z k) = IZR k) by (intros k Hk; apply (f64_of_Z_exact k Hk)).
  assert (Pl : polygon square_loop = [(2, -1); (4, -1); (4, 1); (2, 1); (2, -1); (2, -1)]).
  { unfold square_loop, polygon, point, zpt. cbn [map fst snd app]. rewrite (proj2 (V 2%Z ltac:(lia))), (proj2 (V 4%Z ltac:(lia))), (proj2 (V 1%Z ltac:(lia))), (proj2 (V (-1)%Z ltac:(lia))). reflexivity. }
  split; [apply dot_lr_ok|]. split; [|split; [apply closed_by; vm_compute; reflexivity|split; [|split]]].
  - split; [|split].
    + intros p Hp. unfold square_loop in Hp. apply in_map_iff in Hp as (q & <- & Hq). unfold zpt. cbn [fst snd].
      assert (Q : (Z.abs (fst q) <= 4 /\ Z.abs (snd q) <= 4)%Z) by (repeat (destruct Hq as [<-|Hq]; [cbn; lia|]); destruct Hq).
      destruct (V (fst q) ltac:(lia)) as [F1 V1]. destruct (V (snd q) ltac:(lia)) as [F2 V2]. split; [exact F1|]. split; [exact F2|]. rewrite V1, V2, <- !abs_IZR. split; apply IZR_le; lia.
    + cbn. lra.
    + change (IZR (2 ^ 50)) with 1125899906842624. lra.
  - left. rewrite Pl. intros p q (l1 & l2 & E). unfold turn.
    do 5 (destruct l1 as [|? l1]; [injection E as <- <- _; cbn [fst snd]; lra|cbn [app] in E; injection E as _ E]); destruct l1 as [|? [|]]; discriminate.
  - rewrite Pl. exists 1. do 3 eexists. split; [now left|]. split; [apply path_integral_ex, edge_integral_x|]. split; [apply path_integral_ex, edge_integral_x2|]. split; [apply path_integral_ex, edge_integral_xz|].
    cbn [edge_sum fst snd]. repeat split; lra.
  - unfold slack, square_loop. cbn [map length INR]. change (IZR (2 ^ 53)) with 9007199254740992. lra.
Qed.
