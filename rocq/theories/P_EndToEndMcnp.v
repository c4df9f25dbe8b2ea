(** Property theorem C74, second half: the MCNP files of a source built from a parameterised plasma. *)
From Coq Require Import String List ZArith Lia Lra Reals.
From Verif Require Import Base Reactions SpecReactions Profile P_Profile Transport P_Transport Geometry SpecGeometry Flux SpecFlux FluxProofs P_Flux Space SpecSpace SpaceProofs P_Space
  SpecConvex P_Convex Reactivity SpecReactivity P_Reactivity Source SpecSource SourceProofs P_Source P_EndToEnd
  SpectraData Energy SpecEnergy TextWrap SpecText TextProofs Format SpecFormat FormatProofs P_Text Mcnp SpecMcnp McnpProofs SpecSdef SdefProofs P_Mcnp P_ConvexMcnp.
Import ListNotations.
Open Scope R_scope.

(** The numbers on the spatial cards of a channel can be held by a binary64 number. *)
Definition representable (h : R) (cs : list sample) (st : list R) : Prop :=
  items_in_range (radial_cards h (columns (combine (combine (map sx cs) (map sz cs)) st)) ++
                  column_cards h 5 (columns (combine (combine (map sx cs) (map sz cs)) st))).

(** C74: every source of a parameterised plasma whose neutronic strengths are positive and whose temperatures are between 1 eV and 40 keV
    (C74_parameterised_source delivers such sources) is written to one readable MCNP file per neutronic channel, and what MCNP samples from
    that file is each cell, with the cell's share of the channel's strength as its probability. *)
Theorem C74_mcnp_files : forall m u p rho n cv plasma h tr psi arg side P meth s ws cit stub,
  shape (info p) -> unsquared p -> (5 <= n)%nat -> from_parameterisation p rho n cv = Ok plasma -> 0 < side ->
  make_source m u mpl_inside h tr
    {| fm_lcfs := points (map_lcfs plasma); fm_o := (op_x (map_o_point plasma), op_z (map_o_point plasma)); fm_psi_norm := psi |} arg side P meth = Ok (s, ws) ->
  (forall T, In T (temperature s) -> 1 / 1000 <= T <= 40) ->
  (forall r st x, (0 < neutrons r)%nat -> dget (strength s) r = Some st -> In x st -> 0 < x) ->
  (forall r st, (0 < neutrons r)%nat -> dget (strength s) r = Some st -> representable side (cells s) st) ->
  proper_citation cit ->
  exists files w, to_sdef_card tt_shipped cit s stub = (files, Ok w) /\
    Forall2 (fun r file => fst file = name_of stub r /\ exists st em, dget (strength s) r = Some st /\
        emission (read_deck (snd file)) = Some em /\
        Forall2 close_region em (map (cell_region side (total st)) (combine (map (fun c => (sx c, sz c)) (cells s)) st)))
      (filter neutronic (source_type s)) files.
Proof.
  intros m u p rho0 n cv0 plasma0 h tr psi arg side P meth s ws cit stub Sh Uq Hn Ep0 Hside Mk HT Hpos Hrep Pc.
  assert (G : exists i rho cv plasma, shape i /\ from_parameterisation (Fausser i) rho n cv = Ok plasma /\ points (map_lcfs plasma) = points (map_lcfs plasma0) /\ map_o_point plasma = map_o_point plasma0).
  { destruct p as [i|i]; [exists i, rho0, cv0, plasma0; auto|]. destruct (sauter_as_fausser i rho0 n cv0 plasma0 Sh Uq ltac:(lia) Ep0) as (m' & E' & El & Eo).
    exists i, [1], LINEAR, m'. auto. }
  clear p Sh Uq Ep0. destruct G as (i & rho & cv & plasma & Sh & Ep & El & Eo). rewrite <- El, <- Eo in Mk.
  set (fm := {| fm_lcfs := points (map_lcfs plasma); fm_o := (op_x (map_o_point plasma), op_z (map_o_point plasma)); fm_psi_norm := psi |}) in Mk.
  assert (R1 : reachable m u s) by (exists mpl_inside, h, tr, fm, arg, side, P, meth, s, ws, []; split; [exact Mk|reflexivity]).
  assert (B : sample_space_2d mpl_inside (points (map_lcfs plasma)) (op_x (map_o_point plasma), op_z (map_o_point plasma)) side = Ok (cells s) /\ cell_side s = side).
  { destruct P as [P|].
    - apply make_source_split in Mk. destruct Mk as (s0 & E0 & E1). apply make_bare_ok in E0. destruct E0 as (_ & Es & Ed & _ & _ & ps & dd & dt & dh & f & _ & _ & _ & _ & _ & C & _).
      destruct (normalise_consistent m s0 f P s C E1) as (-> & _). exact (conj Es Ed).
    - apply make_bare_ok in Mk. destruct Mk as (_ & Es & Ed & _). exact (conj Es Ed). }
  destruct B as [Ecs Esd].
  destruct (C70_axis_inside i rho n cv plasma Sh Hn Ep) as [_ Ax]. destruct (Ax side Hside) as (cs & c0 & Ecs' & Hc0 & _). clear Ax.
  assert (Nc : cells s <> []) by (intro Z; rewrite Z in Ecs; rewrite Ecs in Ecs'; injection Ecs' as <-; contradiction).
  destruct (reachable_consistent m u s R1) as (f & C). pose proof C as (Nd & Cs & _ & _ & L).
  assert (Lt : length (temperature s) = length (cells s)) by exact (OpenMCProofs.reachable_lengths m u s R1).
  assert (Q : forall r, In r (source_type s) -> dget (strength s) r = Some (f r)) by (intros r Hr; rewrite Cs; now apply dget_dmap_in).
  assert (Np : forall r, neutronic r = true -> (0 < neutrons r)%nat).
  { intros r Hr. unfold neutronic in Hr. destruct (Nat.eqb_spec (neutrons r) 0); [discriminate|lia]. }
  assert (Fx : forall r, In r (source_type s) -> neutronic r = true -> f r <> [] /\ (forall x, In x (f r) -> 0 < x)).
  { intros r Hr Hn'. split; [|intros x Hx; exact (Hpos r (f r) x (Np r Hn') (Q r Hr) Hx)]. specialize (L r Hr). intro Z. rewrite Z in L. destruct (cells s); [congruence|discriminate]. }
  destruct (C67_to_sdef_card m u s tt_shipped cit stub R1 ltac:(lra) Nc Pc) as (files & w & Ef & F2).
  - intros channel Hc Hneu. rewrite Cs in Hc. apply in_map_iff in Hc. destruct Hc as (r & <- & Hr). cbn [fst] in Hneu. destruct (Fx r Hr Hneu) as [N0 Ps].
    assert (Tp : 0 < total (f r)) by (apply total_pos; assumption).
    assert (Wm : 1 / 1000 <= weighted_mean (f r) (temperature s) <= 40).
    { destruct (C62_between_emitting_cells (f r) (temperature s) (1 / 1000) 40) as (T & ET & BT).
      - now rewrite Lt, (L r Hr).
      - apply Forall_forall. intros x Hx. left. now apply Ps.
      - lra.
      - intros j Hj. apply HT. apply nth_In. rewrite Lt, <- (L r Hr). destruct (lt_dec j (length (f r))) as [Hl|Hl]; [exact Hl|]. rewrite nth_overflow in Hj by lia. lra.
      - rewrite mean_weighted in ET; [injection ET as <-; exact BT|now rewrite Lt, (L r Hr)|lra]. }
    rewrite Esd. apply C67_writable_with_shipped_data; [exact Hneu|lra| |].
    + assert (Hm : 1 / 10 ^ 6 <= Rabs (weighted_mean (f r) (temperature s) / 1000) <= 1000) by (rewrite Rabs_right by lra; lra).
      right. destruct Hm as [H1 H2]. split.
      * eapply Rle_trans; [|exact H1]. replace (1 / 10 ^ 6) with (powerRZ 10 (-6)); [apply pow10_le; lia|]. change (powerRZ 10 (-6)) with (/ 10 ^ 6). unfold Rdiv. now rewrite Rmult_1_l.
      * eapply Rle_trans; [exact H2|]. replace 1000 with (powerRZ 10 3); [apply pow10_le; lia|]. change (powerRZ 10 3) with (10 ^ 3). lra.
    + exact (Hrep r (f r) (Np r Hneu) (Q r Hr)).
  - exists files, w. split; [exact Ef|]. rewrite Esd in F2. rewrite Cs in F2.
    assert (K : filter (fun channel : reaction * list R => neutronic (fst channel)) (dmap f (source_type s)) = map (fun r => (r, f r)) (filter neutronic (source_type s))).
    { unfold dmap. clear. induction (source_type s) as [|r l IH]; [reflexivity|]. cbn [map filter fst]. destruct (neutronic r); cbn [map]; now rewrite IH. }
    rewrite K in F2. clear K Ef Esd. assert (Sub : forall r, In r (filter neutronic (source_type s)) -> In r (source_type s) /\ neutronic r = true) by (intros r Hr; now apply filter_In).
    revert files F2. induction (filter neutronic (source_type s)) as [|r l IH]; intros files F2; inversion F2 as [|? file ? files' Hh F2']; subst; constructor.
    + destruct (Sub r (or_introl eq_refl)) as [Hr Hneu]. split; [exact (proj1 Hh)|].
      destruct (C71_no_gaps i rho n cv plasma side (cells s) (f r) Sh ltac:(lia) Ep Hside Ecs) as [G1 G2].
      destruct (C59_sampled_regions_are_cells tt_shipped stub (map sx (cells s)) (map sz (cells s)) side (temperature s) r (f r) file) as (em & Ee & Fe).
      * now rewrite !map_length.
      * rewrite map_length. now apply L.
      * apply Forall_forall. intros x Hx. left. now apply (Fx r Hr Hneu).
      * exact G1.
      * exact G2.
      * exact Hh.
      * exists (f r), em. split; [now apply Q|]. split; [exact Ee|].
        assert (Z : combine (map sx (cells s)) (map sz (cells s)) = map (fun c => (sx c, sz c)) (cells s)).
        { clear. induction (cells s) as [|c l IH]; [reflexivity|]. cbn [map combine]. now rewrite IH. }
        rewrite Z in Fe. exact Fe.
    + apply IH; [intros r' Hr'; apply Sub; now right|exact F2'].
Qed.
Print Assumptions C74_mcnp_files.

(** A concrete case: the plasma of C74_example with a single cell of side 10 m around the axis, a D-T source of 2 GW. *)
Lemma in_double_range x : x = 0 \/ 1 / 1000 <= Rabs x <= 10 ^ 30 -> double_range x.
Proof.
  intros [H|[H1 H2]]; [now left|right]. split.
  - eapply Rle_trans; [|exact H1]. replace (1 / 1000) with (powerRZ 10 (-3)); [apply pow10_le; lia|]. change (powerRZ 10 (-3)) with (/ 10 ^ 3). unfold Rdiv. rewrite Rmult_1_l. f_equal. lra.
  - eapply Rle_trans; [exact H2|]. change (10 ^ 30) with (powerRZ 10 30). apply pow10_le. lia.
Qed.
Example C74_mcnp_example : exists plasma h tr s ws files w file x,
  (exists i, shape i /\ from_parameterisation (Fausser i) [1] 50 LINEAR = Ok plasma) /\
  make_source nominal_masses nominal_units mpl_inside h tr
    {| fm_lcfs := points (map_lcfs plasma); fm_o := (op_x (map_o_point plasma), op_z (map_o_point plasma)); fm_psi_norm := fun p => Ok (Rabs (snd p)) |}
    (SReact DT) 10 (Some 2e9) MAuto = Ok (s, ws) /\
  to_sdef_card tt_shipped ex_citation s (txt "demo") = (files, Ok w) /\ files = [file] /\ fst file = txt "demo.DT" /\
  emission (read_deck (snd file)) = Some [x] /\ close_region x ((-175, 825), (-500, 500), 1).
Proof.
  destruct shape_example as (i & Ei & Sh & Am & Ss & _).
  destruct (C42_nodes_and_labels (Fausser i) [1] 50 LINEAR Sh ltac:(lia)) as (plasma & it & Em & _ & El & _); [exists 1; cbn; split; [auto|lra]|].
  set (h := [pedestal_profile 25 5 (1/10) 1.5 2 0.9; pedestal_profile 8e19 6e19 2e19 1 2 0.9]).
  destruct (C25_from_parameterisations h 0%nat 1%nat [0; 1] {| fD := 1/2; fT := 1/2; fHe3 := 0 |} ltac:(cbn; lia)) as (h' & tr & Et & _ & Hread).
  assert (B : forall core ped sep alpha beta rp, 0 < alpha -> 0 < beta -> 0 < sep <= ped -> ped <= core -> forall x, exists v, value (pedestal_profile core ped sep alpha beta rp) x = Ok v /\ sep <= v <= core).
  { intros core ped sep al be rp Ha Hb H1 H2 x. destruct (C21_pedestal_shape core ped sep al be rp Ha Hb) as (f & Ef & _ & _ & _ & _ & Bd & _).
    exists (f x). split; [apply Ef|]. specialize (Bd x). rewrite (Rmin_right ped sep), (Rmin_right core sep), (Rmax_left ped sep), (Rmax_left core ped) in Bd by lra. exact Bd. }
  assert (BT : forall x, exists T, read h 0%nat x = Ok T /\ 1/10 <= T <= 25).
  { intro x. exact (B 25 5 (1/10) 1.5 2 0.9 ltac:(lra) ltac:(lra) ltac:(lra) ltac:(lra) x). }
  destruct (C74_parameterised_source nominal_masses nominal_units (Fausser i) [1] 50 LINEAR plasma h 0%nat 1%nat [0; 1] {| fD := 1/2; fT := 1/2; fHe3 := 0 |} h' tr
    (fun p => Rabs (snd p)) (SReact DT) 10 2e9 MAuto [DT]) as (s & ws & Es & Pw & Ty & Sr & (c & Hc & Pc) & Cell & _ & St & _).
  - unfold physical_masses; cbn [nominal_masses mD mT mHe3]; lra.
  - intros []; unfold total_energy, E_DT, E_DD_TP, E_DD_HE3N, E_TT, E_DHE3; cbn [nominal_masses mD mT mHe mHe3 mn mp me amu_J]; lra.
  - cbn [nominal_units amu_kg]; lra.
  - cbn [nominal_units keV_J]; lra.
  - exact Sh.
  - exact I.
  - lia.
  - exact Em.
  - unfold h; cbn [length]; lia.
  - unfold h; cbn [length]; lia.
  - intro x. destruct (BT x) as (v & Ev & Bv). exists v. split; [exact Ev|lra].
  - intro x. destruct (B 8e19 6e19 2e19 1 2 0.9 ltac:(lra) ltac:(lra) ltac:(lra) ltac:(lra) x) as (v & Ev & Bv). exists v. split; [exact Ev|lra].
  - cbn [fD]; lra.
  - cbn [fT]; lra.
  - cbn [fHe3]; lra.
  - exact Et.
  - reflexivity.
  - exists DT. split; [now left|]. vm_compute. lia.
  - lra.
  - lra.
  - cbn [fm_o] in Pc.
    destruct (o_point_of i [1] 50 LINEAR plasma Em) as (_ & Eo & _).
    assert (Er : r_0 i = 3 /\ z_0 i = 0 /\ kappa i = 2). { clear - Ei. rewrite lcfs_ok in Ei by (unfold sensible; rewrite Rabs_left by lra; lra). injection Ei as <-. cbn. auto. }
    destruct Er as (Er & Ez & Ek). rewrite Eo, Er, Ez, Ss in Pc. injection Pc as Px Pz.
    pose proof Es as Es0. apply make_source_split in Es0. destruct Es0 as (s0 & E0 & E1). apply make_bare_ok in E0. destruct E0 as (_ & Esp & Ed & _ & _ & ps & dd & dt & dh & f & M1 & M2 & _ & _ & _ & C & _).
    cbn [fm_lcfs fm_o] in Esp. destruct (normalise_consistent nominal_masses s0 f 2e9 s C E1) as (Eq & _).
    assert (Ec : cells s = cells s0) by (rewrite Eq; reflexivity). rewrite <- Ec in Esp.
    assert (One : cells s = [c]).
    { destruct (C28_distinct_lattice_cells_inside _ _ _ 10 _ ltac:(lra) Esp) as [A N].
      assert (U : forall d, In d (cells s) -> (sx d, sz d) = (3 + 1/4, 0)).
      { intros d Hd. destruct (A d Hd) as (Ins & a & b & Lat). destruct (C29_crossing_test_stays_in_box _ _ Ins) as ((v1 & V1 & L1) & (v2 & V2 & L2) & (v3 & V3 & L3) & (v4 & V4 & L4)). cbn [fst snd] in *.
        pose proof (C37_bounds i 1.0 50 _ v1 Sh ltac:(lra) El V1) as (_ & B1 & _). pose proof (C37_bounds i 1.0 50 _ v2 Sh ltac:(lra) El V2) as (_ & B2 & _).
        pose proof (C37_bounds i 1.0 50 _ v3 Sh ltac:(lra) El V3) as (_ & _ & B3). pose proof (C37_bounds i 1.0 50 _ v4 Sh ltac:(lra) El V4) as (_ & _ & B4).
        rewrite Er, Am in B1, B2. rewrite Ez, Ek, Am in B3, B4. apply Rcomplements.Rabs_le_between in B1, B2, B3, B4. rewrite Ss in B1, B2.
        rewrite Lat. unfold lattice in *. cbn [fst snd] in *. injection Lat as X Z. pose proof Eo as Eo'. injection Eo' as O1 O2. rewrite O1, Er, Ss in X |- *. rewrite O2, Ez in Z |- *.
        assert (a = 0)%Z. { assert (-1 < a)%Z by (apply lt_IZR; lra). assert (a < 1)%Z by (apply lt_IZR; lra). lia. }
        assert (b = 0)%Z. { assert (-1 < b)%Z by (apply lt_IZR; lra). assert (b < 1)%Z by (apply lt_IZR; lra). lia. }
        subst a b. f_equal; lra. }
      destruct (cells s) as [|d [|e l]]; [contradiction|destruct Hc as [->|[]]; reflexivity|]. exfalso. cbn [map] in N. rewrite (U d (or_introl eq_refl)), (U e (or_intror (or_introl eq_refl))) in N.
      inversion N as [|? ? Hn _]. apply Hn. now left. }
    destruct (St DT (or_introl eq_refl)) as (st & Dst & Lst & Pst). rewrite One in Lst. destruct st as [|x [|? ?]]; try discriminate.
    assert (Px0 : 0 < x) by (apply Pst; [now left|discriminate]).
    assert (Rs : reachable nominal_masses nominal_units s).
    { eexists mpl_inside, h', tr, _, _, _, _, _, s, ws, []. split; [exact Es|reflexivity]. }
    assert (Vx : 1 / 1000 <= x <= 10 ^ 29).
    { destruct (C08_normalise_succeeds _ _ s 1 Rs) as [Q _]. rewrite Pw in Q. injection Q as Q. destruct (reachable_consistent _ _ s Rs) as (g & Cg). pose proof Cg as (_ & Cg1 & _). rewrite Ty in Cg1.
      assert (strength s = [(DT, [x])]). { rewrite Cg1 in Dst |- *. cbn in Dst |- *. injection Dst as ->. reflexivity. }
      unfold power in Q. rewrite H in Q. cbn [map total fst snd total_energy] in Q. unfold E_DT in Q. cbn [nominal_masses mD mT mHe mn amu_J] in Q. split; lra. }
    assert (Rep : representable 10 [c] [x]).
    { unfold representable. cbn [map combine columns]. rewrite Px, Pz.
      unfold radial_cards, items_in_range. cbn [column_cards map app fst snd total length seq]. unfold boundaries, heights, strengths. cbn [map app fst snd last total].
      repeat match goal with |- Forall _ (_ :: _) => apply Forall_cons | |- Forall _ [] => apply Forall_nil end; cbv beta iota.
      all: match goal with |- True => exact I | _ => idtac end.
      all: match goal with |- (_ < _)%Z => reflexivity | _ => apply in_double_range end.
      all: match goal with |- 0 = 0 \/ _ => now left | _ => idtac end.
      all: right; first [rewrite Rabs_right by lra; lra | rewrite Rabs_left by lra; lra]. }
    destruct (C74_mcnp_files nominal_masses nominal_units (Fausser i) [1] 50 LINEAR plasma h' tr (fun p => Ok (Rabs (snd p))) (SReact DT) 10 (Some 2e9) MAuto s ws ex_citation (txt "demo")) as (files & w & Ew & F2).
    + exact Sh.
    + exact I.
    + lia.
    + exact Em.
    + lra.
    + exact Es.
    + assert (T1 : temperature s = temperature s0) by (rewrite Eq; reflexivity). rewrite T1. intros T HT. apply mapM_Ok_Forall2 in M2. clear - M2 HT Hread BT.
      induction M2 as [|a b l l' Hab _ IH]; [contradiction|]. destruct HT as [<-|HT]; [|now apply IH].
      destruct (Hread a) as (_ & _ & _ & Q). rewrite Q in Hab by (cbn; lia). destruct (BT a) as (T' & E' & R'). assert (b = T') by congruence. subst. lra.
    + intros r st' y Hneu D' Hy. assert (r = DT).
      { destruct (reachable_consistent _ _ s Rs) as (g & Cg). destruct Cg as (_ & Cg1 & _). rewrite Cg1, dget_dmap in D'. rewrite Ty in D'. destruct r; try discriminate; reflexivity. }
      subst r. rewrite Dst in D'. injection D' as <-. destruct Hy as [<-|[]]. exact Px0.
    + intros r st' Hneu D'. assert (r = DT).
      { destruct (reachable_consistent _ _ s Rs) as (g & Cg). destruct Cg as (_ & Cg1 & _). rewrite Cg1, dget_dmap in D'. rewrite Ty in D'. destruct r; try discriminate; reflexivity. }
      subst r. rewrite Dst in D'. injection D' as <-. rewrite One. exact Rep.
    + exact ex_citation_proper.
    + clear Eq Ec. rewrite Ty in F2. change (filter neutronic [DT]) with [DT] in F2. inversion F2 as [|? file ? rest Hh Fr]; subst. inversion Fr; subst.
      destruct Hh as (Nm & st' & em & D' & Ee & Fe). rewrite Dst in D'. injection D' as <-. rewrite One in Fe. cbn [map combine] in Fe.
      inversion Fe as [|y ? ? ? Hy Fe']; subst. inversion Fe'; subst.
      exists plasma, h', tr, s, ws, [file], w, file, y. split; [exists i; auto|]. split; [exact Es|]. split; [exact Ew|]. split; [reflexivity|]. split; [exact Nm|]. split; [exact Ee|].
      unfold cell_region in Hy. rewrite Px, Pz in Hy. cbn [total] in Hy.
      replace (100 * (3 + 1/4 - 10 / 2)) with (-175) in Hy by lra. replace (100 * (3 + 1/4 + 10 / 2)) with 825 in Hy by lra.
      replace (100 * (0 - 10 / 2)) with (-500) in Hy by lra. replace (100 * (0 + 10 / 2)) with 500 in Hy by lra. replace (x / (x + 0)) with 1 in Hy by (field; lra). exact Hy.
Qed.
