(** C105 for sampled plasmas: the cells of space.py's grid, computed with rounding, written to MCNP files. *)
From Coq Require Import Ascii String List Bool Arith ZArith Lia Reals Lra Sorted.
From Flocq Require Import Core.Core IEEE754.BinarySingleNaN.
From Verif Require Import Base Reactions Space Source SpecSource SourceProofs OpenMCProofs SpectraData Energy TextWrap SpecText Format SpecFormat FormatProofs P_Energy Mcnp SpecMcnp McnpProofs SpecSdef SdefProofs P_Mcnp P_McnpGrid
  FloatComp FloatCompProofs FloatCompAcc FloatSource SpecFloatSource FloatSourceProofs P_FloatSource FloatReactivityProofs FloatSpace SpecFloatSpace FloatSpaceProofs P_FloatSpace FloatMcnp SpecFloatMcnp FloatMcnpProofs FloatMcnpFileProofs FloatMcnpNumProofs FloatMcnpDeckProofs FloatMcnpChannelProofs P_FloatMcnp SpecFloatSdef FloatSdefProofs P_FloatSdef
  FloatProfile FloatProfileProofs FloatTT SpecFloatTT FloatTTProofs P_FloatTT.
Import ListNotations.
Open Scope R_scope.
Local Notation total := SpecSource.total.
Local Notation bp := (bpow radix2).

(** Order of the cells: by column, then by height. *)
Definition earlier (p q : f64 * f64) : Prop := B2R (fst p) < B2R (fst q) \/ (B2R (fst p) = B2R (fst q) /\ B2R (snd p) < B2R (snd q)).
Definition up (a b : f64) : Prop := B2R a < B2R b.
Lemma product_earlier xs zs : StronglySorted up xs -> StronglySorted up zs -> StronglySorted earlier (list_prod xs zs).
Proof.
  intros Sx Sz. induction Sx as [|x xs S IH F]; [constructor|]. cbn [list_prod]. apply P_FloatMcnp.SS_app.
  - clear - Sz. induction Sz as [|z zs S IH F]; cbn [map]; constructor; [exact IH|]. apply Forall_map. eapply Forall_impl; [|exact F]. intros b L. right. split; [reflexivity|exact L].
  - exact IH.
  - intros p [x' z'] Hp Hq. apply in_map_iff in Hp. destruct Hp as (z & <- & _). apply in_prod_iff in Hq. rewrite Forall_forall in F. left. apply F. apply Hq.
Qed.
Lemma adjacent_earlier l1 : forall a b l2, StronglySorted earlier (l1 ++ a :: b :: l2) -> earlier a b /\ forall t, In t (l1 ++ a :: b :: l2) -> earlier a t -> earlier t b -> False.
Proof.
  assert (Tr : forall x y, earlier x y -> earlier y x -> False) by (unfold earlier; intros; lra).
  assert (Ir : forall x, earlier x x -> False) by (unfold earlier; intros; lra).
  induction l1 as [|x l1 IH]; cbn [app]; intros a b l2 HS; inversion HS as [|? ? HS' Fa]; subst.
  - split; [exact (Forall_inv Fa)|]. intros t Hin Hat Htb. inversion HS' as [|? ? _ Fb]; subst. destruct Hin as [<-|[<-|Hin]]; [eauto|eauto|]. rewrite Forall_forall in Fb. eauto.
  - destruct (IH a b l2 HS') as [E N]. split; [exact E|]. intros t [<-|Hin] Hat Htb; [|now apply (N t)]. rewrite Forall_forall in Fa. assert (earlier x a) by (apply Fa; apply in_or_app; right; now left). eauto.
Qed.
Lemma cells_split (pts : list (f64 * f64)) : forall (v : list R) pre r1 z1 s1 r2 z2 s2 post,
  combine (combine (map B2R (map fst pts)) (map B2R (map snd pts))) v = pre ++ (r1, z1, s1) :: (r2, z2, s2) :: post ->
  exists l1 a b l2, pts = l1 ++ a :: b :: l2 /\ B2R (fst a) = r1 /\ B2R (snd a) = z1 /\ B2R (fst b) = r2 /\ B2R (snd b) = z2.
Proof.
  induction pts as [|c pts IH]; intros v pre r1 z1 s1 r2 z2 s2 post E; [destruct pre; discriminate|]. destruct v as [|x v]; [destruct pre; discriminate|].
  destruct pre as [|p pre].
  - destruct pts as [|c' pts]; [discriminate|]. destruct v as [|x' v]; [discriminate|]. cbn [map combine app] in E.
    assert (E1 : (B2R (fst c), B2R (snd c), x) = (r1, z1, s1)) by congruence. assert (E2 : (B2R (fst c'), B2R (snd c'), x') = (r2, z2, s2)) by congruence. injection E1 as U1 U2 _. injection E2 as U3 U4 _.
    exists [], c, c', pts. repeat split; assumption.
  - cbn [map combine app] in E. injection E as _ E. destruct (IH v pre r1 z1 s1 r2 z2 s2 post E) as (l1 & a & b & l2 & -> & H). now exists (c :: l1), a, b, l2.
Qed.

Section Grid.
  Variables (M : R) (cx cz : list f64) (ox oz h : f64) (xs zs : list f64) (inside : f64 * f64 -> bool).
  Hypotheses (Ax : ordinary_axis M cx ox h) (Az : ordinary_axis M cz oz h) (Gx : on_grid M cx ox h xs) (Gz : on_grid M cz oz h zs) (NG : no_gaps inside xs zs).
  Let pts := filter inside (list_prod xs zs).
  Lemma axis_step coords o cs : on_grid M coords o h cs -> 0 <= M ->
    StronglySorted up cs /\ (forall i a b, nth_error cs i = Some a -> nth_error cs (S i) = Some b -> Rabs (B2R b - B2R a - B2R h) <= (2 * INR (length cs) + 11) * (M / 2 ^ 50)).
  Proof.
    intros (k & G1 & G2 & _) PM. split; [apply P_FloatMcnp.SS_nth; intros i j c d L Hi Hj; now apply (G2 i j)|]. intros i a b Ha Hb.
    assert (Li : (S i < length cs)%nat). { destruct (Nat.lt_ge_cases (S i) (length cs)) as [L|L]; [exact L|]. apply nth_error_None in L. pose proof (eq_trans (eq_sym L) Hb) as Q. discriminate Q. }
    destruct (G1 i a Ha) as [_ E1]. destruct (G1 (S i) b Hb) as [_ E2]. apply le_INR in Li. rewrite !S_INR in *.
    assert (0 <= M / 2 ^ 50) by (apply Rmult_le_pos; [exact PM|left; apply Rinv_0_lt_compat, pow_lt; lra]). set (t := INR i) in *. set (hh := B2R h) in *. set (w := M / 2 ^ 50) in *. set (n := INR (length cs)) in *.
    assert (2 * (t * w) + 13 * w <= (2 * n + 11) * w) by (replace (2 * (t * w) + 13 * w) with ((2 * t + 13) * w) by ring; apply Rmult_le_compat_r; lra).
    apply Rabs_le_inv in E1, E2. apply Rabs_le. lra.
  Qed.
  Lemma up_index cs i j a b : StronglySorted up cs -> nth_error cs i = Some a -> nth_error cs j = Some b -> B2R a < B2R b -> (i < j)%nat.
  Proof.
    assert (G : forall i j a b, StronglySorted up cs -> nth_error cs i = Some a -> nth_error cs j = Some b -> (i < j)%nat -> B2R a < B2R b).
    { induction cs as [|c l IH]; intros i0 j0 a0 b0 S Hi Hj L; [destruct i0; discriminate|]. inversion S as [|? ? S' F]; subst. destruct j0 as [|j0]; [lia|]. destruct i0 as [|i0].
      - cbn in Hi. injection Hi as <-. rewrite Forall_forall in F. apply F. eapply nth_error_In. exact Hj.
      - apply (IH i0 j0 a0 b0 S' Hi Hj). lia. }
    intros S Hi Hj L. destruct (Nat.lt_trichotomy i j) as [Q|[-> |Q]]; [exact Q| |].
    - rewrite Hi in Hj. injection Hj as ->. lra.
    - pose proof (G j i b a S Hj Hi Q). lra.
  Qed.
  Lemma up_same cs a b : StronglySorted up cs -> In a cs -> In b cs -> B2R a = B2R b -> a = b.
  Proof.
    intros S. induction S as [|c l S IH F]; intros Ha Hb E; [destruct Ha|]. rewrite Forall_forall in F. unfold up in F. destruct Ha as [<- |Ha], Hb as [<- |Hb]; [reflexivity|specialize (F b Hb); lra|specialize (F a Ha); lra|now apply IH].
  Qed.
  Lemma up_next cs i a b : StronglySorted up cs -> nth_error cs i = Some a -> In b cs -> B2R a < B2R b ->
    (exists m, nth_error cs (S i) = Some m /\ (m = b \/ B2R a < B2R m < B2R b)).
  Proof.
    intros S Hi Hb L. destruct (In_nth_error _ _ Hb) as [j Hj]. pose proof (up_index cs i j a b S Hi Hj L) as Lij.
    assert (Lj : (j < length cs)%nat) by (destruct (Nat.lt_ge_cases j (length cs)) as [Q|Q]; [exact Q|apply nth_error_None in Q; pose proof (eq_trans (eq_sym Q) Hj) as Z0; discriminate Z0]).
    destruct (nth_error cs (Datatypes.S i)) as [m|] eqn:Em; [|apply nth_error_None in Em; lia]. exists m. split; [reflexivity|].
    destruct (Nat.eq_dec j (Datatypes.S i)) as [-> |N]; [left; rewrite Em in Hj; now injection Hj|right].
    assert (G : forall l i j a b, StronglySorted up l -> nth_error l i = Some a -> nth_error l j = Some b -> (i < j)%nat -> B2R a < B2R b).
    { clear. induction l as [|c l IH]; intros i0 j0 a0 b0 S Hi Hj L; [destruct i0; discriminate|]. inversion S as [|? ? S' F]; subst. destruct j0 as [|j0]; [lia|]. destruct i0 as [|i0].
      - cbn in Hi. injection Hi as <-. rewrite Forall_forall in F. apply F. eapply nth_error_In. exact Hj.
      - apply (IH i0 j0 a0 b0 S' Hi Hj). lia. }
    split; [apply (G cs i (Datatypes.S i)); try assumption; lia|apply (G cs (Datatypes.S i) j); try assumption; lia].
  Qed.
  Lemma grid_contiguous (v : list R) : 0 <= M -> let eta := (2 * INR (length xs + length zs) + 11) * (M / 2 ^ 50) in
    let grid := columns (combine (combine (map B2R (map fst pts)) (map B2R (map snd pts))) v) in
    nearly_contiguous eta (B2R h) (map fst grid) /\ Forall (fun c => nearly_contiguous eta (B2R h) (heights c)) grid.
  Proof.
    intros PM eta grid. destruct (axis_step cx ox xs Gx PM) as [Sx Dx]. destruct (axis_step cz oz zs Gz PM) as [Sz Dz]. destruct NG as [NG1 NG2].
    assert (W : 0 <= M / 2 ^ 50) by (apply Rmult_le_pos; [exact PM|left; apply Rinv_0_lt_compat, pow_lt; lra]).
    assert (Ex : (2 * INR (length xs) + 11) * (M / 2 ^ 50) <= eta) by (unfold eta; apply Rmult_le_compat_r; [exact W|]; rewrite plus_INR; pose proof (pos_INR (length zs)); lra).
    assert (Ez : (2 * INR (length zs) + 11) * (M / 2 ^ 50) <= eta) by (unfold eta; apply Rmult_le_compat_r; [exact W|]; rewrite plus_INR; pose proof (pos_INR (length xs)); lra).
    assert (So : StronglySorted earlier pts) by (apply P_FloatMcnp.SS_filter, product_earlier; assumption).
    assert (Mem : forall x z, In (x, z) pts <-> (In x xs /\ In z zs) /\ inside (x, z) = true) by (intros; unfold pts; rewrite filter_In, in_prod_iff; reflexivity).
    assert (Adj : forall l, (forall p a b q, l = p ++ a :: b :: q -> Rabs (b - a - B2R h) <= eta) -> nearly_contiguous eta (B2R h) l).
    { induction l as [|a l IH]; intro H; [exact I|]. destruct l as [|b l]; [exact I|]. split; [exact (H [] a b l eq_refl)|]. apply IH. intros p x y q E. apply (H (a :: p) x y q). now rewrite E. }
    split; [|apply Forall_forall; intros c Hc]; apply Adj; intros p a b q E.
    - apply columns_adjacent in E. destruct E as (N & pre & z1 & s1 & z2 & s2 & post & E). apply cells_split in E. destruct E as (l1 & [xa za] & [xb zb] & l2 & E & <- & _ & <- & _). cbn [fst snd] in *.
      pose proof So as So'. rewrite E in So'. apply adjacent_earlier in So'. destruct So' as [Eab Nb]. cbn [fst snd] in *.
      assert (Ia : In (xa, za) pts) by (rewrite E; apply in_or_app; right; now left). assert (Ib : In (xb, zb) pts) by (rewrite E; apply in_or_app; right; right; now left).
      apply Mem in Ia, Ib. destruct Ia as ((Ixa & Iza) & Ina). destruct Ib as ((Ixb & Izb) & Inb). destruct Eab as [L|[Q _]]; cbn [fst snd] in *; [|contradiction].
      destruct (In_nth_error _ _ Ixa) as [i Hi]. destruct (up_next xs i xa xb Sx Hi Ixb L) as (m & Hm & [-> |[L1 L2]]); [eapply Rle_trans; [apply (Dx i xa xb Hi Hm)|exact Ex]|]. exfalso.
      assert (Ixm : In m xs) by (eapply nth_error_In; exact Hm). destruct (NG2 xa m xb za zb) as (z & Iz & Inz); try assumption; [now split|].
      apply (Nb (m, z)); [rewrite <- E; apply Mem; now repeat split|left; exact L1|left; exact L2].
    - apply (column_adjacent _ c p a b q Hc) in E. destruct E as (pre & s1 & s2 & post & E). apply cells_split in E. destruct E as (l1 & [xa za] & [xb zb] & l2 & E & Xa & <- & Xb & <-). cbn [fst snd] in *.
      pose proof So as So'. rewrite E in So'. apply adjacent_earlier in So'. destruct So' as [Eab Nb]. cbn [fst snd] in *.
      assert (Ia : In (xa, za) pts) by (rewrite E; apply in_or_app; right; now left). assert (Ib : In (xb, zb) pts) by (rewrite E; apply in_or_app; right; right; now left).
      apply Mem in Ia, Ib. destruct Ia as ((Ixa & Iza) & Ina). destruct Ib as ((Ixb & Izb) & Inb). destruct Eab as [L|[_ L]]; cbn [fst snd] in *; [lra|].
      assert (Exx : xb = xa) by (apply (up_same xs); [assumption..|congruence]). subst xb.
      destruct (In_nth_error _ _ Iza) as [i Hi]. destruct (up_next zs i za zb Sz Hi Izb L) as (m & Hm & [-> |[L1 L2]]); [eapply Rle_trans; [apply (Dz i za zb Hi Hm)|exact Ez]|]. exfalso.
      assert (Izm : In m zs) by (eapply nth_error_In; exact Hm).
      apply (Nb (xa, m)); [rewrite <- E; apply Mem; repeat split; try assumption; apply (NG1 xa za m zb); try assumption; now split|right; cbn; lra|right; cbn; lra].
  Qed.
End Grid.

(** A plasma sampled on a grid of [length xs] columns and [length zs] heights whose cells leave no gaps: the files can be written, and what MCNP
    samples from each of them are the cells, as rings, with their shares of the strength. *)
Theorem C105_sampled_plasma : forall cm MeV npsum table cit stub fused inside square lcfs ox oz h M out xs zs temps st,
  factor_ok cm 100 -> factor_ok MeV (/ 1000) -> (forall l, sums l (npsum l)) -> table_ok table -> proper_citation cit ->
  two (-80) <= M <= two 97 -> ordinary_axis M (map fst lcfs) ox h -> ordinary_axis M (map snd lcfs) oz h ->
  centers64 fused (map fst lcfs) ox h = Ok xs -> centers64 fused (map snd lcfs) oz h = Ok zs -> no_gaps (inside lcfs) xs zs ->
  sample_space_2d64 fused inside square lcfs (ox, oz) h = Ok out -> out <> [] -> INR (length out) <= 10 ^ 8 ->
  (forall x z v, In (x, z, v) out -> two (-100) <= B2R x) ->
  let r := map (fun s => fst (fst s)) out in let z := map (fun s => snd (fst s)) out in
  temps_ok temps -> length temps = length r -> (forall channel, In channel st -> neutronic (fst channel) = true -> channel_ok r channel) ->
  exists files, write_mcnp_sdef_source64 cm MeV npsum table cit stub r z h temps st = (files, Ok tt) /\
    Forall2 (fun channel file => exists em, emission (read_deck (snd file)) = Some em /\
        Forall2 (near_region (5 * M / 10 ^ 12 + 101 * ((2 * INR (length xs + length zs) + 11) * (M / 2 ^ 50)))) em
          (map (ring_region (B2R h) (total (map B2R (snd channel)))) (cells_of r z (snd channel))))
      (filter (fun channel => neutronic (fst channel)) st) files.
Proof.
  intros cm MeV npsum table cit stub fused inside square lcfs ox oz h M out xs zs temps st Hc Hm Hs Ht Pc HM Hx Hz Ex Ez NG Run N0 N8 R0 r z Ft Lt W.
  assert (G : grid_ok r z h) by (eapply C104_sampled_cells; eassumption).
  destruct (axis_grid fused M _ _ _ Hx) as (xs' & Ex' & Gx). assert (xs' = xs) by (rewrite Ex in Ex'; now injection Ex'). subst xs'.
  destruct (axis_grid fused M _ _ _ Hz) as (zs' & Ez' & Gz). assert (zs' = zs) by (rewrite Ez in Ez'; now injection Ez'). subst zs'. clear Ex' Ez'.
  destruct (axis_scale M _ _ _ Hx) as (_ & PM & [PH HM1] & MH & _).
  destruct (grid_spread _ _ _ _ _ Hx Gx) as [Bx _]. destruct (grid_spread _ _ _ _ _ Hz Gz) as [Bz _].
  unfold sample_space_2d64 in Run. cbn [fst snd] in Run. rewrite Ex, Ez in Run. cbn [bind] in Run. apply ok_inj in Run. rewrite mesh_prod in Run.
  assert (Er : r = map fst (filter (inside lcfs) (list_prod xs zs))) by (unfold r; rewrite <- Run, map_map; reflexivity).
  assert (Ezz : z = map snd (filter (inside lcfs) (list_prod xs zs))) by (unfold z; rewrite <- Run, map_map; reflexivity).
  assert (Mem : forall p, In p (filter (inside lcfs) (list_prod xs zs)) -> In (fst p) xs /\ In (snd p) zs) by (intros [a b] Hp; apply filter_In in Hp; destruct Hp as [Hp _]; now apply in_prod_iff in Hp).
  apply C105_sampled_regions_are_cells; try assumption.
  - split; apply Forall_forall; intros x Hxx.
    + rewrite Er in Hxx. apply in_map_iff in Hxx. destruct Hxx as (p & <- & Hp). destruct (Bx _ (proj1 (Mem p Hp))) as [_ B]. lra.
    + rewrite Ezz in Hxx. apply in_map_iff in Hxx. destruct Hxx as (p & <- & Hp). destruct (Bz _ (proj2 (Mem p Hp))) as [_ B]. lra.
  - apply Rmult_le_pos; [pose proof (pos_INR (length xs + length zs)); lra|]. apply Rmult_le_pos; [lra|left; apply Rinv_0_lt_compat, pow_lt; lra].
  - unfold cells_of. generalize (map B2R (map (fun _ : f64 => f0) r)). intro v. rewrite Er, Ezz. apply (grid_contiguous M (map fst lcfs) (map snd lcfs) ox oz h xs zs (inside lcfs)); try assumption. lra.
Qed.
Print Assumptions C105_sampled_plasma.

(** A convex plasma leaves no gaps: so does one in which the test decides membership of a convex set of points that contains, with each point, the one
    at the height of a row of the grid. *)
Theorem C105_convex_no_gaps : forall (inside : f64 * f64 -> bool) (A : R -> R -> Prop) xs zs (z0 : f64),
  (forall x z, In x xs -> In z zs -> inside (x, z) = true <-> A (B2R x) (B2R z)) ->
  (forall x z x' z' t, 0 <= t <= 1 -> A x z -> A x' z' -> A (x + t * (x' - x)) (z + t * (z' - z))) ->
  In z0 zs -> (forall x z, A x z -> A x (B2R z0)) -> no_gaps inside xs zs.
Proof.
  intros inside A xs zs z0 D C I0 P.
  assert (Fr : forall a b c : R, a < b < c -> 0 <= (b - a) / (c - a) <= 1 /\ a + (b - a) / (c - a) * (c - a) = b).
  { intros a b c L. split; [|field; lra]. split; [apply Rmult_le_pos; [lra|left; apply Rinv_0_lt_compat; lra]|]. apply (Rmult_le_reg_r (c - a)); [lra|]. unfold Rdiv. rewrite Rmult_assoc, Rinv_l by lra. lra. }
  split.
  - intros x z1 z2 z3 Ix I1 I2 I3 L H1 H3. apply D in H1, H3; try assumption. apply D; try assumption. destruct (Fr _ _ _ L) as [F E]. pose proof (C _ _ _ _ _ F H1 H3) as Q. rewrite E in Q. replace (B2R x + (B2R z2 - B2R z1) / (B2R z3 - B2R z1) * (B2R x - B2R x)) with (B2R x) in Q by (field; lra). exact Q.
  - intros x1 x2 x3 z1 z3 I1 I2 I3 J1 J3 L H1 H3. apply D in H1, H3; try assumption. exists z0. split; [exact I0|]. apply D; try assumption. destruct (Fr _ _ _ L) as [F E]. apply P in H1, H3. pose proof (C _ _ _ _ _ F H1 H3) as Q. rewrite E in Q. replace (B2R z0 + (B2R x2 - B2R x1) / (B2R x3 - B2R x1) * (B2R z0 - B2R z0)) with (B2R z0) in Q by (field; lra). exact Q.
Qed.
Print Assumptions C105_convex_no_gaps.

(** A square plasma on whole numbers, with the test x, z between 1 and 3, meets these hypotheses. *)
Example C105_convex_hypotheses : let n := f64_of_Z in let g := [n 0%Z; n 1%Z; n 2%Z; n 3%Z; n 4%Z] in
  no_gaps (fun p => Bleb (n 1%Z) (fst p) && Bleb (fst p) (n 3%Z) && (Bleb (n 1%Z) (snd p) && Bleb (snd p) (n 3%Z))) g g.
Proof.
  intros n g. destruct (f64_of_Z_exact 1 ltac:(lia)) as [F1 V1]. destruct (f64_of_Z_exact 3 ltac:(lia)) as [F3 V3]. destruct (f64_of_Z_exact 2 ltac:(lia)) as [F2 V2]. fold n in F1, F2, F3, V1, V2, V3.
  assert (Fg : forall x, In x g -> is_finite x = true). { intros x Hx. cbn [g In] in Hx. destruct Hx as [<- |[<- |[<- |[<- |[<- |[]]]]]]; reflexivity. }
  apply (C105_convex_no_gaps _ (fun x z => (1 <= x <= 3) /\ (1 <= z <= 3)) g g (n 2%Z)).
  - intros x z Hx Hz. cbn [fst snd]. pose proof (Fg x Hx). pose proof (Fg z Hz). rewrite !andb_true_iff, !leb_val by assumption. rewrite V1, V3. tauto.
  - intros x z x' z' t Ht [[A B] [C D]] [[A' B'] [C' D']].
    assert (K : forall a b, 1 <= a <= 3 -> 1 <= b <= 3 -> 1 <= a + t * (b - a) <= 3).
    { intros a b Ha Hb. assert (0 <= t * (b - 1)) by (apply Rmult_le_pos; lra). assert (0 <= (1 - t) * (a - 1)) by (apply Rmult_le_pos; lra). assert (0 <= t * (3 - b)) by (apply Rmult_le_pos; lra). assert (0 <= (1 - t) * (3 - a)) by (apply Rmult_le_pos; lra). lra. }
    split; apply K; lra.
  - cbn [g In]. tauto.
  - intros x z [A _]. rewrite V2. split; [exact A|lra].
Qed.
(** The example of C104 meets the hypotheses about the cells. *)
Example C105_sampled_hypotheses : forall xs zs lcfs, no_gaps ((fun (_ : list (f64 * f64)) _ => true) lcfs) xs zs.
Proof. intros. split; [reflexivity|]. intros. now exists z1. Qed.

(** ** The shipped T-T table *)
(** With the shipped table the files can be written and hold what C104 says: for T-T, the table's spectrum (C106). *)
Theorem C106_sdef_files : forall cm MeV npsum mev per_mev rows cit stub r z h temps st,
  factor_ok cm 100 -> factor_ok MeV (/ 1000) -> factor_ok mev 1000 -> factor_ok per_mev (/ 1000) -> (forall l, sums l (npsum l)) -> read_rows rows ->
  proper_citation cit -> grid_ok r z h -> temps_ok temps -> length temps = length r ->
  (forall channel, In channel st -> neutronic (fst channel) = true -> channel_ok r channel) ->
  let table := data_spectrum64 npsum (make_tt64 mev per_mev rows) TT in
  exists files, write_mcnp_sdef_source64 cm MeV npsum table cit stub r z h temps st = (files, Ok tt) /\
    Forall2 (holds_channel64 table stub r z h temps) (filter (fun channel => neutronic (fst channel)) st) files.
Proof. intros. apply C104_file_contents; try assumption. now apply C106_table_ok. Qed.
Print Assumptions C106_sdef_files.
