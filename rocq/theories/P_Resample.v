(** Property theorems C97: area and volume of a resampled flux surface. *)
From Coq Require Import Reals Lra Lia ZArith List Bool.
From Coquelicot Require Rcomplements.
From Verif Require Import Base Profile Geometry SpecGeometry GeometryProofs P_Geometry Flux SpecFlux FluxProofs P_Flux ResampleProofs.
Import ListNotations.
Open Scope R_scope.

(** Resampling a closed surface of perimeter P at n points changes its area by at most P^2 / (4 n), and its volume by
    at most 2 pi X times that, X being the largest radius on the surface. *)
Theorem C97_resampled : forall l n, loop l -> (1 <= n)%nat ->
  let P := path_length l in
  let err := P ^ 2 / (4 * INR n) in
  exists l' A A' V V', interpolate_flux_surface l n = Ok l' /\ loop l' /\
    area (SClosed l) = Ok A /\ area (SClosed l') = Ok A' /\ volume (SClosed l) = Ok V /\ volume (SClosed l') = Ok V' /\
    Rabs (A' - A) <= err /\
    forall X, (forall p, In p l -> Rabs (fst p) <= X) -> err < A -> Rabs (V' - V) <= 2 * PI * X * err.
Proof.
  intros l n L Hn P err. destruct L as (p & r & El & Lr). assert (L : loop l) by (now exists p, r). subst l.
  destruct (C44_equally_spaced p r n Hn) as (out & E & Len & Lo & H0 & W). fold P in W.
  assert (N : 0 < INR n) by (apply lt_0_INR; lia). pose proof (path_length_nonneg (p :: r)) as P0. fold P in P0.
  set (h := P / INR n) in *. assert (Hh : 0 <= h) by (apply Rle_mult_inv_pos; lra). assert (PN : P = INR n * h) by (unfold h; field; lra).
  assert (Out : exists rs, out = rs ++ [last r p] /\ length rs = n).
  { destruct Lo as (q & o & -> & Lq). cbn in H0. injection H0 as ->. rewrite Lr. destruct n as [|n]; [lia|]. cbn in Len. destruct (exists_last (l := o)) as (o' & z & ->); [destruct o; [discriminate|congruence]|].
    rewrite last_last in Lq. subst z. exists (p :: o'). split; [reflexivity|]. rewrite app_length in Len. cbn in *. lia. }
  destruct Out as (rs & Eo & Lrs).
  assert (W' : forall k, (k < n)%nat -> exists q, nth_error rs k = Some q /\ walk (p :: r) (INR k * h) q).
  { intros k Hk. destruct (W k Hk) as (q & E1 & E2). exists q. split; [|exact E2]. now rewrite Eo, nth_error_app1 in E1 by lia. }
  pose proof (crs_resample h n r p rs Hh Hn PN Lrs W') as B1. rewrite <- Eo in B1.
  assert (Er : INR n * (h ^ 2 / 2) = 2 * err) by (unfold err, h; field; lra).
  assert (B1' : Rabs (edge_sum crs out / 2 - edge_sum crs (p :: r) / 2) <= err).
  { replace (edge_sum crs out / 2 - edge_sum crs (p :: r) / 2) with (/ 2 * (edge_sum crs out - edge_sum crs (p :: r))) by field. rewrite Rabs_mult, (Rabs_pos_eq (/ 2)) by lra. lra. }
  assert (HA : forall x, Rabs x / 2 = Rabs (x / 2)) by (intro x; unfold Rdiv; rewrite Rabs_mult, (Rabs_pos_eq (/ 2)) by lra; reflexivity).
  do 5 eexists. split; [exact E|]. split; [exact Lo|]. split; [exact (area_loop _ L)|]. split; [exact (area_loop _ Lo)|]. split; [exact (volume_loop _ L)|]. split; [exact (volume_loop _ Lo)|].
  split; [rewrite !HA; eapply Rle_trans; [apply Rabs_triang_inv2|exact B1']|].
  intros X HX Big. pose proof (x2dz_resample X h n r p rs Hh Hn HX PN Lrs W') as B2. rewrite <- Eo in B2.
  unfold x2dz in B2. rewrite !x2_dz in B2 by assumption. set (M := edge_sum (mom fst) (p :: r)) in *. set (M' := edge_sum (mom fst) out) in *. set (C := edge_sum crs (p :: r)) in *. set (C' := edge_sum crs out) in *. clearbody M M' C C'.
  assert (B3 : PI / 3 * Rabs (M' - M) <= 2 * PI * X * err).
  { pose proof PI_RGT_0. apply Rle_trans with (PI / 3 * (INR n * (3 * X * (h ^ 2 / 2)))); [apply Rmult_le_compat_l; lra|]. replace (INR n * (3 * X * (h ^ 2 / 2))) with (3 * X * (INR n * (h ^ 2 / 2))) by ring. rewrite Er. apply Req_le. field. }
  apply Rcomplements.Rabs_le_between in B1'.
  destruct (Rltb_spec 0 C) as [Q|Q]; [rewrite Rabs_pos_eq in Big by lra|rewrite Rabs_left1 in Big by lra].
  - destruct (Rltb_spec 0 C') as [Q'|Q']; [|exfalso; lra]. replace (PI / 3 * M' - PI / 3 * M) with (PI / 3 * (M' - M)) by ring. rewrite Rabs_mult, (Rabs_pos_eq (PI / 3)) by (pose proof PI_RGT_0; lra). exact B3.
  - destruct (Rltb_spec 0 C') as [Q'|Q']; [exfalso; lra|]. destruct (Rltb_spec C 0); [|exfalso; assert (0 <= err) by (unfold err; apply Rle_mult_inv_pos; [apply pow2_ge_0|lra]); lra]. destruct (Rltb_spec C' 0); [|exfalso; lra].
    replace (PI / 3 * - M' - PI / 3 * - M) with (PI / 3 * - (M' - M)) by ring. rewrite Rabs_mult, Rabs_Ropp, (Rabs_pos_eq (PI / 3)) by (pose proof PI_RGT_0; lra). exact B3.
Qed.
Print Assumptions C97_resampled.

(** FluxMap.get_flux_surface(psi) against FluxMap.get_flux_surface(psi, n) of a map read from an EQDSK file. *)
Theorem C97_flux_map : forall contours m it psi s n, map_interp m = IGrid it -> get_flux_surface contours m psi None = Ok s ->
  (loop (points s) \/ psi <= 0) -> (1 <= n)%nat ->
  exists s' A A', get_flux_surface contours m psi (Some n) = Ok s' /\ area s = Ok A /\ area s' = Ok A' /\
    Rabs (A' - A) <= path_length (points s) ^ 2 / (4 * INR n).
Proof.
  intros contours m it psi s n Ei E Hs Hn. unfold get_flux_surface in *. rewrite Ei in *. cbn [interp_get_flux_surface] in *. unfold grid_get_flux_surface in *.
  destruct (Reqb_spec (clip 0 1 psi) 0) as [Z|Z].
  - injection E as <-. do 3 eexists. split; [reflexivity|]. split; [reflexivity|]. split; [reflexivity|]. rewrite Rminus_diag_eq by reflexivity. rewrite Rabs_R0. cbn [points path_length].
    apply Rle_mult_inv_pos; [apply pow2_ge_0|]. assert (0 < INR n) by (apply lt_0_INR; lia). lra.
  - destruct (find_flux_surf _ _) as [pts| |]; cbn [bind] in *; try discriminate. unfold closed_flux_surface in E. destruct (is_closed pts) as [[]| |]; cbn [bind] in E; try discriminate. injection E as <-. cbn [points] in *.
    destruct Hs as [L|L].
    2:{ exfalso. apply Z. unfold clip. unfold Rmax, Rmin; repeat destruct Rle_dec; lra. }
    destruct (C97_resampled pts n L Hn) as (l' & A & A' & V & V' & E1 & Lo & EA & EA' & _ & _ & B & _). rewrite E1. cbn [bind]. rewrite (closed_of_loop _ Lo). do 3 eexists. split; [reflexivity|]. split; [exact EA|]. split; [exact EA'|]. exact B.
Qed.
Print Assumptions C97_flux_map.

(** A contour that meets the hypotheses: the 2 x 1 rectangle, resampled at 100 points, keeps its area 2 to 0.09. *)
Example C97_example : let l := [(1, 0); (3, 0); (3, 1); (1, 1); (1, 0)] in
  let m := {| map_lcfs := SRing (2, 0); map_o_point := {| op_x := 2; op_z := 1 / 2; op_psi := 0 |};
              map_interp := IGrid {| gi_x := []; gi_z := []; gi_psi_norm := []; gi_o_point := {| op_x := 2; op_z := 1 / 2; op_psi := 0 |} |} |} in
  get_flux_surface (fun _ _ _ _ => [l]) m (1 / 2) None = Ok (SClosed l) /\ loop l /\ path_length l = 6 /\ area (SClosed l) = Ok 2 /\
  exists s' A', get_flux_surface (fun _ _ _ _ => [l]) m (1 / 2) (Some 100%nat) = Ok s' /\ area s' = Ok A' /\ Rabs (A' - 2) <= 0.09.
Proof.
  intros l m. assert (L : loop l) by (exists (1, 0), [(3, 0); (3, 1); (1, 1); (1, 0)]; split; reflexivity).
  assert (G : get_flux_surface (fun _ _ _ _ => [l]) m (1 / 2) None = Ok (SClosed l)).
  { unfold get_flux_surface, m; cbn [map_interp interp_get_flux_surface]. unfold grid_get_flux_surface. assert (C : clip 0 1 (1 / 2) = 1 / 2) by (unfold clip, Rmin, Rmax; repeat destruct Rle_dec; lra). rewrite C.
    destruct (Reqb_spec (1 / 2) 0); [lra|]. unfold find_flux_surf. cbn [mapM]. rewrite f_min_ok by discriminate. cbn [bind argmin argmin_from nth_error]. now apply closed_of_loop. }
  assert (D : forall p q v, 0 <= v -> (fst q - fst p) ^ 2 + (snd q - snd p) ^ 2 = v ^ 2 -> distance p q = v) by (intros p q v Hv E; unfold distance; rewrite E; now apply sqrt_pow2).
  assert (P : path_length l = 6).
  { unfold l. cbn [path_length]. rewrite (D (1, 0) (3, 0) 2), (D (3, 0) (3, 1) 1), (D (3, 1) (1, 1) 2), (D (1, 1) (1, 0) 1) by (cbn [fst snd]; lra). lra. }
  assert (A : area (SClosed l) = Ok 2). { unfold area. rewrite (area_loop l L). f_equal. unfold l, crs; cbn [edge_sum fst snd]. rewrite Rabs_pos_eq; lra. }
  split; [exact G|]. split; [exact L|]. split; [exact P|]. split; [exact A|].
  destruct (C97_flux_map _ m _ (1 / 2) _ 100 eq_refl G (or_introl L) ltac:(lia)) as (s' & A0 & A' & E & EA & EA' & B). cbn [points] in B. rewrite P in B. rewrite A in EA. injection EA as <-.
  exists s', A'. split; [exact E|]. split; [exact EA'|]. replace (INR 100) with 100 in B by (cbn; ring). lra.
Qed.
