(** C95: sampling the cells in the arithmetic the computer uses (binary64). *)
From Coq Require Import ZArith Bool Reals Lra Lia List Floats.SpecFloat.
From Flocq Require Import Core.Core IEEE754.BinarySingleNaN.
From Verif Require Import Base FloatComp FloatCompProofs FloatCompAcc FloatSource SpecFloatSource FloatSourceProofs FloatSpace SpecFloatSpace FloatSpaceProofs PiProofs P_FloatSource.
Local Open Scope R_scope.
Local Notation bp := (bpow radix2).

Lemma ok_inj {A} (a b : A) : Ok a = Ok b -> a = b.
Proof. congruence. Qed.
Lemma mesh_prod xs zs : mesh64 xs zs = list_prod xs zs.
Proof. unfold mesh64. induction xs as [|x xs IH]; [reflexivity|]. cbn [flat_map list_prod]. now rewrite IH. Qed.

(** The samples are the points of a grid that passes the polygon test, in order; along both axes the grid is, up to rounding, the lattice of the cell size
    through the O-point, and misses no lattice point inside the bounding box of the boundary. *)
Theorem C95_sampling fused inside square lcfs ox oz h M :
  ordinary_axis M (map fst lcfs) ox h -> ordinary_axis M (map snd lcfs) oz h ->
  exists xs zs out, sample_space_2d64 fused inside square lcfs (ox, oz) h = Ok out /\
    on_grid M (map fst lcfs) ox h xs /\ on_grid M (map snd lcfs) oz h zs /\
    map (fun s => (fst (fst s), snd (fst s))) out = filter (inside lcfs) (list_prod xs zs).
Proof.
  intros Hx Hz. destruct (axis_grid fused M _ _ _ Hx) as (xs & Ex & Gx). destruct (axis_grid fused M _ _ _ Hz) as (zs & Ez & Gz).
  exists xs, zs. eexists. unfold sample_space_2d64. cbn [fst snd]. rewrite Ex, Ez. cbn [bind]. split; [reflexivity|]. split; [exact Gx|]. split; [exact Gz|].
  rewrite map_map. cbn [fst snd]. rewrite mesh_prod. erewrite map_ext; [apply map_id|]. intros []; reflexivity.
Qed.
Print Assumptions C95_sampling.

(** If the O-point is within the range of the boundary, as it is in a plasma, one centre is next to it. *)
Theorem C95_O_point_cell fused M coords o h a b : ordinary_axis M coords o h -> In a coords -> In b coords -> B2R a <= B2R o <= B2R b ->
  exists cs i c, centers64 fused coords o h = Ok cs /\ nth_error cs i = Some c /\ Rabs (B2R c - B2R o) <= (INR i + 6) * (M / 2 ^ 50).
Proof.
  intros HA Ia Ib L. destruct (axis_grid fused M _ _ _ HA) as (cs & E & (k & G1 & _ & G3 & _)). destruct (G3 0%Z a b Ia Ib) as (i & Li & Ei). { cbn [IZR]. lra. }
  destruct (nth_error cs i) as [c|] eqn:Ec; [|apply nth_error_None in Ec; lia]. exists cs, i, c. split; [exact E|]. split; [exact Ec|]. destruct (G1 i c Ec) as [_ B]. cbn [IZR] in Ei. replace (INR i - IZR k) with 0 in B by lra. rewrite Rmult_0_l, Rplus_0_r in B. exact B.
Qed.
Print Assumptions C95_O_point_cell.

(** ** Volumes *)
Lemma two_pi : let p := fmul f2 f_pi in is_finite p = true /\ B2R p = IZR 7074237752028440 * bp (-50).
Proof. destruct (lit_value (fmul f2 f_pi) 7074237752028440 (-50)) as [A B]; [vm_compute; reflexivity|]. split; [exact A|exact B]. Qed.
Lemma pi_close : close 1 (IZR 7074237752028440 * bp (-50)) (2 * PI).
Proof.
  pose proof PI_16 as [P1 P2]. pose proof ww_u as W. rewrite uu_val in W. change (IZR (2 ^ 53)) with 9007199254740992 in W. change (bp (-50)) with (/ 1125899906842624).
  unfold close. rewrite wp_one. split; [lra|]. split; [lra|]. split.
  - eapply Rle_trans; [|apply Rmult_le_compat_l; [lra|exact W]]. lra.
  - eapply Rle_trans; [|apply Rmult_le_compat_l; [lra|exact W]]. lra.
Qed.
Lemma square_close s H : 0 <= H -> Rabs (s - H) <= / 2 ^ 52 * H -> close 3 s H.
Proof.
  intros PH E. replace (/ 2 ^ 52) with (2 * uu) in E. 2:{ rewrite uu_val. change (IZR (2 ^ 53)) with 9007199254740992. replace (2 ^ 52) with 4503599627370496 by ring. lra. }
  apply Rabs_le_inv in E. pose proof uu_small as Us. pose proof ww_u as W. pose proof (Rmult_le_pos uu H ltac:(lra) PH) as UH.
  assert (UU : uu * H <= / 1024 * H) by (apply Rmult_le_compat_r; lra).
  assert (W3 : 1 + 3 * uu <= wp 3). { unfold wp. cbn [pow]. assert ((1 + uu) * ((1 + uu) * (1 + uu)) <= ww * (ww * ww)). { apply Rmult_le_compat; [lra|nra|exact W|]. apply Rmult_le_compat; lra. } nra. }
  assert (S0 : 0 <= s) by lra. unfold close. split; [exact S0|]. split; [exact PH|]. split.
  - apply Rle_trans with (H * (1 + 3 * uu)); [lra|]. now apply Rmult_le_compat_l.
  - apply Rle_trans with (s * (1 + 3 * uu)); [|now apply Rmult_le_compat_l].
    assert (uu * (H - 2 * uu * H) <= uu * s) by (apply Rmult_le_compat_l; lra). assert (uu * (uu * H) <= / 1024 * (uu * H)) by (apply Rmult_le_compat_r; lra). lra.
Qed.

(** The volume of a cell is that of the ring the cell makes around the axis of the tokamak, up to six units in the last place, if the platform's square is
    accurate to one unit. *)
Theorem C95_volumes fused inside square lcfs ox oz h M out x z v :
  ordinary_axis M (map fst lcfs) ox h -> ordinary_axis M (map snd lcfs) oz h ->
  is_finite (square h) = true -> within 1 (B2R (square h)) (B2R h ^ 2) ->
  sample_space_2d64 fused inside square lcfs (ox, oz) h = Ok out -> In (x, z, v) out -> two (-200) <= B2R x ->
  is_finite v = true /\ within 6 (B2R v) (2 * PI * B2R x * B2R h ^ 2).
Proof.
  intros Hx Hz Fs Es Run Hin Lx. destruct (axis_grid fused M _ _ _ Hx) as (xs & Ex & Gx). destruct (axis_grid fused M _ _ _ Hz) as (zs & Ez & Gz).
  unfold sample_space_2d64 in Run. cbn [fst snd] in Run. rewrite Ex, Ez in Run. cbn [bind] in Run. apply ok_inj in Run. subst out. apply in_map_iff in Hin. destruct Hin as ((x' & z') & E & Hin). cbn [fst snd] in E. injection E as -> -> <-.
  apply filter_In in Hin. destruct Hin as [Hin _]. rewrite mesh_prod in Hin. apply in_prod_iff in Hin. destruct Hin as [Ix _].
  destruct (axis_scale M _ _ _ Hx) as (SM & PM & [PH HM] & MH & PU & UM & UH & HB). destruct Gx as (k & G1 & _ & _ & G4).
  assert (Fx : is_finite x = true). { destruct (In_nth_error _ _ Ix) as [i Hi]. apply (G1 i x Hi). }
  destruct (G4 x Ix) as (a & b & _ & Ib & Lb). assert (Bx : B2R x <= bp 205).
  { destruct Hx as ([_ M2] & _ & _ & _ & _ & Fc & _). rewrite Forall_forall in Fc. destruct (Fc b Ib) as [_ Bb]. apply Rabs_le_inv in Bb. rewrite two_bpow in M2. apply Rle_trans with (bp 5 * bp 200); [change (bp 5) with 32; lra|]. rewrite bp_mul. right. reflexivity. }
  rewrite two_bpow in Lx. pose proof (bp_pos (-200)) as P200.
  assert (C3 : close 3 (B2R (square h)) (B2R h ^ 2)). { apply square_close; [apply pow2_ge_0|]. unfold within in Es. cbn [INR] in Es. replace (/ 2 ^ 52) with (1 / 2 ^ 52) by lra. exact Es. }
  assert (H2 : bp (-440) <= B2R h ^ 2 <= bp 400).
  { destruct SM as [M1 M2]. assert (A1 : bp (-220) <= B2R h). { apply Rle_trans with (bp (-200) * bp (-20)); [right; symmetry; apply bp_mul|]. change (bp (-20)) with (/ 1048576). lra. }
    pose proof (bp_pos (-220)). split; cbn [pow]; rewrite Rmult_1_r.
    - replace (bp (-440)) with (bp (-220) * bp (-220)) by (rewrite bp_mul; reflexivity). apply Rmult_le_compat; lra.
    - replace (bp 400) with (bp 200 * bp 200) by (rewrite bp_mul; reflexivity). apply Rmult_le_compat; lra. }
  destruct two_pi as [Fp Vp]. set (p := fmul f2 f_pi) in *. pose proof pi_close as Cp. rewrite <- Vp in Cp.
  assert (Pp : 6 <= B2R p <= 8). { rewrite Vp. change (bp (-50)) with (/ 1125899906842624). lra. }
  assert (Nx : fin_nn x) by (split; [exact Fx|lra]). assert (Np : fin_nn p) by (split; [exact Fp|lra]). assert (Ns : fin_nn (square h)) by (split; [exact Fs|apply C3]).
  assert (B1 : bp (-198) <= B2R p * B2R x <= bp 208).
  { split.
    - replace (bp (-198)) with (bp 2 * bp (-200)) by (rewrite bp_mul; reflexivity). change (bp 2) with 4. apply Rmult_le_compat; lra.
    - replace (bp 208) with (bp 3 * bp 205) by (rewrite bp_mul; reflexivity). change (bp 3) with 8. apply Rmult_le_compat; lra. }
  destruct (fmul_close p x Np Nx) as [N1 C1]. { right. split; [eapply Rle_trans; [|apply B1]; apply bpow_le; lia|eapply Rle_trans; [apply B1|apply bpow_le; lia]]. }
  set (px := fmul p x) in *. assert (W1 : wp 1 <= 2). { rewrite wp_one. unfold ww. pose proof uu_small. replace 2 with (/ / 2) by field. apply Rinv_le_contravar; lra. }
  assert (W3 : wp 3 <= 8). { replace (wp 3) with (wp 1 * (wp 1 * wp 1)) by (unfold wp; ring). pose proof (wp_pos 1). assert (wp 1 * wp 1 <= 2 * 2) by (apply Rmult_le_compat; lra). replace 8 with (2 * (2 * 2)) by ring. apply Rmult_le_compat; try lra. apply Rmult_le_pos; lra. }
  assert (half : forall n u w B, close n u w -> wp n <= B -> 0 < w -> w <= B * u /\ u <= B * w).
  { intros n u w B (c1 & c2 & c3 & c4) HB' Pw. pose proof (wp_pos n). split; [eapply Rle_trans; [exact c4|rewrite Rmult_comm; now apply Rmult_le_compat_r]|eapply Rle_trans; [exact c3|rewrite Rmult_comm; now apply Rmult_le_compat_r]]. }
  pose proof (bp_pos (-198)) as P198. pose proof (bp_pos (-440)) as P440.
  destruct (half 1%nat _ _ 2 C1 W1 ltac:(lra)) as [h1 h2]. destruct (half 3%nat _ _ 8 C3 W3 ltac:(lra)) as [h3 h4].
  assert (B3 : bp (-199) <= B2R px <= bp 209).
  { split; [replace (bp (-199)) with (bp (-1) * bp (-198)) by (rewrite bp_mul; reflexivity); change (bp (-1)) with (/ 2); lra|replace (bp 209) with (bp 1 * bp 208) by (rewrite bp_mul; reflexivity); change (bp 1) with 2; lra]. }
  assert (B4 : bp (-443) <= B2R (square h) <= bp 403).
  { split; [replace (bp (-443)) with (bp (-3) * bp (-440)) by (rewrite bp_mul; reflexivity); change (bp (-3)) with (/ 8); lra|replace (bp 403) with (bp 3 * bp 400) by (rewrite bp_mul; reflexivity); change (bp 3) with 8; lra]. }
  pose proof (bp_pos (-199)). pose proof (bp_pos (-443)).
  destruct (fmul_close px (square h) N1 Ns) as [N2 C2].
  { right. split.
    - apply Rle_trans with (bp (-199) * bp (-443)); [rewrite bp_mul; apply bpow_le; lia|]. apply Rmult_le_compat; lra.
    - apply Rle_trans with (bp 209 * bp 403); [|rewrite bp_mul; apply bpow_le; lia]. apply Rmult_le_compat; lra. }
  split; [apply N2|]. apply close_within. { rewrite uu_val. change (IZR (2 ^ 53)) with 9007199254740992. change (INR 6) with (2 + 1 + 1 + 1 + 1). lra. }
  change 6%nat with (1 + ((1 + (1 + 0)) + 3))%nat. eapply close_trans; [exact C2|]. apply close_mult; [|exact C3]. eapply close_trans; [exact C1|]. apply close_mult; [exact Cp|]. apply close_refl. lra.
Qed.
Print Assumptions C95_volumes.

(** ** The O-point is in general not exactly a cell centre *)
(** The floats nearest to 4.2, 8.2, 6.2 and 0.1. *)
Definition f4_2 : f64 := lit 4728779608739021 (-50).
Definition f8_2 : f64 := lit 4616189618054758 (-49).
Definition f6_2 : f64 := lit 6980579422424269 (-50).
Definition f0_1 : f64 := lit 7205759403792794 (-56).

Lemma value_of (x : f64) p e : B2SF x = S754_finite false p e -> is_finite x = true /\ B2R x = IZR (Zpos p) * bp e.
Proof. apply lit_value. Qed.
Lemma ex_axis : ordinary_axis 16 [f4_2; f8_2] f6_2 f0_1.
Proof.
  destruct (value_of f4_2 4728779608739021 (-50)) as [F1 V1]; [vm_compute; reflexivity|]. destruct (value_of f8_2 4616189618054758 (-49)) as [F2 V2]; [vm_compute; reflexivity|].
  destruct (value_of f6_2 6980579422424269 (-50)) as [F3 V3]; [vm_compute; reflexivity|]. destruct (value_of f0_1 7205759403792794 (-56)) as [F4 V4]; [vm_compute; reflexivity|].
  change (bp (-50)) with (/ 1125899906842624) in *. change (bp (-49)) with (/ 562949953421312) in *. change (bp (-56)) with (/ 72057594037927936) in *.
  unfold ordinary_axis. rewrite !two_bpow. replace (2 ^ 20) with 1048576 by ring. split. { split; [apply Rle_trans with (bp 4); [apply bpow_le; lia|change (bp 4) with 16; lra]|apply Rle_trans with (bp 4); [change (bp 4) with 16; lra|apply bpow_le; lia]]. }
  split; [exact F4|]. split; [lra|]. split; [exact F3|]. split; [apply Rabs_le; lra|]. split.
  { constructor; [split; [exact F1|apply Rabs_le; lra]|]. constructor; [split; [exact F2|apply Rabs_le; lra]|constructor]. }
  discriminate.
Qed.
Lemma ex_between : B2R f4_2 < B2R f6_2 < B2R f8_2.
Proof.
  destruct (value_of f4_2 4728779608739021 (-50)) as [F1 V1]; [vm_compute; reflexivity|]. destruct (value_of f8_2 4616189618054758 (-49)) as [F2 V2]; [vm_compute; reflexivity|].
  destruct (value_of f6_2 6980579422424269 (-50)) as [F3 V3]; [vm_compute; reflexivity|].
  change (bp (-50)) with (/ 1125899906842624) in *. change (bp (-49)) with (/ 562949953421312) in *. lra.
Qed.
Theorem C95_centre_on_O_point_refuted :
  ~ (forall fused M coords o h a b cs, ordinary_axis M coords o h -> In a coords -> In b coords -> B2R a < B2R o < B2R b -> centers64 fused coords o h = Ok cs -> exists c, In c cs /\ B2R c = B2R o).
Proof.
  intro Hyp. destruct (axis_grid false 16 _ _ _ ex_axis) as (cs & E & (k & G & _)).
  destruct (Hyp false 16 _ _ _ f4_2 f8_2 cs ex_axis (or_introl eq_refl) (or_intror (or_introl eq_refl)) ex_between E) as (c & Ic & Vc).
  assert (Fc : is_finite c = true) by (destruct (In_nth_error _ _ Ic) as [i Hi]; apply (G i c Hi)).
  assert (B : Beqb c f6_2 = true) by (rewrite Beqb_correct by (exact Fc || reflexivity); now apply Req_bool_true).
  assert (X : existsb (fun c => Beqb c f6_2) cs = true) by (apply existsb_exists; exists c; now split).
  assert (Y : match centers64 false [f4_2; f8_2] f6_2 f0_1 with Ok cs => existsb (fun c => Beqb c f6_2) cs | _ => true end = false) by (vm_compute; reflexivity).
  rewrite E in Y. congruence.
Qed.
Print Assumptions C95_centre_on_O_point_refuted.

(** The hypotheses are met by a square boundary from 4.2 m to 8.2 m in both directions; the square of 0.1 computed with one rounding is accurate to one unit. *)
Example C95_hypotheses : let lcfs := [(f4_2, f4_2); (f8_2, f4_2); (f8_2, f8_2); (f4_2, f8_2)] in
  ordinary_axis 16 (map fst lcfs) f6_2 f0_1 /\ ordinary_axis 16 (map snd lcfs) f6_2 f0_1 /\
  is_finite (fmul f0_1 f0_1) = true /\ within 1 (B2R (fmul f0_1 f0_1)) (B2R f0_1 ^ 2).
Proof.
  destruct ex_axis as (A1 & A2 & A3 & A4 & A5 & A6 & A7).
  assert (G : forall l, l <> [] -> (forall c, In c l -> In c [f4_2; f8_2]) -> ordinary_axis 16 l f6_2 f0_1).
  { intros l N E. unfold ordinary_axis. do 5 (split; [assumption|]). split; [|exact N]. apply Forall_forall. intros c Hc. apply E in Hc. rewrite Forall_forall in A6. now apply A6. }
  split; [apply G; [discriminate|intro; cbn [In map fst snd]; tauto]|]. split; [apply G; [discriminate|intro; cbn [In map fst snd]; tauto]|].
  destruct (value_of f0_1 7205759403792794 (-56)) as [F4 V4]; [vm_compute; reflexivity|]. destruct (value_of (fmul f0_1 f0_1) 5764607523034236 (-59)) as [F5 V5]; [vm_compute; reflexivity|]. split; [exact F5|].
  unfold within. rewrite V4, V5. change (bp (-56)) with (/ 72057594037927936). change (bp (-59)) with (/ 576460752303423488). replace (2 ^ 52) with 4503599627370496 by ring. cbn [INR]. apply Rabs_le. lra.
Qed.
