(** Property theorem C74: a source built from a parameterised plasma, from the constructor to OpenMC and MCNP. *)
From Coq Require Import String List ZArith Lia Lra Reals.
From Verif Require Import Base Reactions SpecReactions ReactionsProofs Profile P_Profile Transport P_Transport Geometry SpecGeometry Flux SpecFlux FluxProofs P_Flux
  Space SpecSpace SpaceProofs P_Space SpecConvex ConvexProofs ConvexFlux P_Convex
  Reactivity SpecReactivity ReactivityProofs P_Reactivity Source SpecSource SourceProofs P_Source
  Energy SpecEnergy OpenMC SpecOpenMC OpenMCProofs P_OpenMC.
Import ListNotations.
Open Scope R_scope.

(** Every channel releases energy. *)
Definition exothermic (m : masses) : Prop := forall r, 0 < total_energy m r.

(** Strengths of a source with positive densities: positive, except where D-He3 finds no helium-3. *)
Lemma strengths_positive m u inside h tr fm arg side meth s ws : physical_masses m -> 0 < amu_kg u -> 0 < keV_J u -> 0 < side ->
  make_source m u inside h tr fm arg side None meth = Ok (s, ws) ->
  (forall c, In c (cells s) -> 0 < sx c) ->
  (forall psi, exists T, read h (temp_prof tr) psi = Ok T /\ 0 < T <= 100) ->
  (forall p psi x, In p [d_prof tr; t_prof tr] -> read h p psi = Ok x -> 0 < x) ->
  (forall psi x, read h (he3_prof tr) psi = Ok x -> 0 <= x) ->
  forall r st x, dget (strength s) r = Some st -> In x st -> 0 <= x /\ (r <> DHe3 -> 0 < x).
Proof.
  intros Hm Hu Hk Hside E Hx HT Hd Hh r st x Hst Hin.
  destruct (C06_strength_formula _ _ _ _ _ _ _ _ _ _ _ E) as (_ & Es & _ & H).
  assert (Hr : In r (source_type s)).
  { apply make_bare_ok in E. destruct E as (_ & _ & _ & _ & _ & psi & dd & dt & dh & f & _ & _ & _ & _ & _ & C & _).
    destruct C as (_ & C1 & _). rewrite C1, dget_dmap in Hst. destruct (memb r (source_type s)) eqn:Q; [now apply memb_In|discriminate]. }
  destruct (H r Hr) as (st' & E1 & L & F). rewrite Hst in E1. injection E1 as <-.
  apply In_nth_error in Hin. destruct Hin as [i Hi].
  assert (exists c, nth_error (cells s) i = Some c) as [c Hc].
  { assert (i < length st)%nat by (apply nth_error_Some; congruence).
    destruct (nth_error (cells s) i) eqn:Q; [eauto|]. apply nth_error_None in Q. rewrite <- L in Q. lia. }
  destruct (F i c Hc) as (psi & T & d & t & h3 & sv & w & a & b & prods & P1 & P2 & P3 & P4 & P5 & P6 & P7 & P8 & P9).
  rewrite Hi in P9. injection P9 as ->.
  assert (D1 : 0 < d) by (eapply Hd; [|exact P3]; cbn; auto). assert (D2 : 0 < t) by (eapply Hd; [|exact P4]; cbn; auto).
  assert (D3 : 0 <= h3) by (eapply Hh; exact P5).
  assert (Hv : 0 < sv).
  { destruct (HT psi) as (T' & ET & R). assert (T' = T) by congruence. subst T'.
    destruct (reactivity_total m u Hm Hu Hk [T] r meth ltac:(discriminate)) as (v & w' & Ev & Pv); [intros ? [<-|[]]; exact R|].
    rewrite P7 in Ev. injection Ev as <- _. exact (Forall_inv Pv). }
  destruct (sample_lattice inside _ _ side Hside _ Es c (nth_error_In _ _ Hc)) as (_ & _ & V).
  assert (Pc : 0 < svol c). { rewrite V. pose proof PI_RGT_0. specialize (Hx c (nth_error_In _ _ Hc)).
    apply Rmult_lt_0_compat; [|nra]. apply Rmult_lt_0_compat; [lra|exact Hx]. }
  assert (G : 0 <= pair_density (fuel d t h3) a b /\ (r <> DHe3 -> 0 < pair_density (fuel d t h3) a b)).
  { assert (Q : forall n, 0 <= fuel d t h3 n) by (intros []; cbn; lra). split.
    - unfold pair_density. destruct (nuclide_eq_dec a b); (apply Rmult_le_pos; [apply Rmult_le_pos; auto|lra]).
    - intro Nr. destruct r; try congruence; vm_compute in P8; injection P8 as <- <- _; unfold pair_density;
        destruct (nuclide_eq_dec _ _); cbn [fuel]; (apply Rmult_lt_0_compat; [apply Rmult_lt_0_compat; assumption|lra]). }
  destruct G as [G1 G2]. split.
  - apply Rmult_le_pos; [apply Rmult_le_pos|]; lra.
  - intro Nr. specialize (G2 Nr). apply Rmult_lt_0_compat; [apply Rmult_lt_0_compat|]; assumption.
Qed.

Lemma total_pos l : l <> [] -> (forall x, In x l -> 0 < x) -> 0 < total l.
Proof. intros N H. rewrite <- pysum_total. now apply positive_sum. Qed.
Lemma total_nonneg l : (forall x, In x l -> 0 <= x) -> 0 <= total l.
Proof. induction l as [|x l IH]; intro H; cbn [total]; [lra|]. pose proof (H x (or_introl eq_refl)). assert (0 <= total l) by (apply IH; intros; apply H; now right). lra. Qed.
Lemma total_pos_one l x : (forall x, In x l -> 0 <= x) -> In x l -> 0 < x -> 0 < total l.
Proof.
  induction l as [|y l IH]; intros H Hi P; [contradiction|]. cbn [total]. pose proof (H y (or_introl eq_refl)).
  assert (N : forall z, In z l -> 0 <= z) by (intros; apply H; now right). destruct Hi as [<-|Hi]; [pose proof (total_nonneg l N)|pose proof (IH N Hi P)]; lra.
Qed.

Lemma make_source_join m u inside h tr fm arg side P meth s0 ws s : make_source m u inside h tr fm arg side None meth = Ok (s0, ws) ->
  normalise_fusion_power m s0 P = Ok s -> make_source m u inside h tr fm arg side (Some P) meth = Ok (s, ws).
Proof.
  unfold make_source.
  destruct (parse_source_type arg) as [types| |]; cbn [bind]; try discriminate.
  destruct (sample_space_2d inside (fm_lcfs fm) (fm_o fm) side) as [cs| |]; cbn [bind]; try discriminate.
  destruct (mapM (fun c => fm_psi_norm fm (fst (fst c), snd (fst c))) cs) as [psi| |]; cbn [bind]; try discriminate.
  destruct (mapM (read h (temp_prof tr)) psi) as [temps| |]; cbn [bind]; try discriminate.
  destruct (mapM (read h (d_prof tr)) psi) as [dd| |]; cbn [bind]; try discriminate.
  destruct (mapM (read h (t_prof tr)) psi) as [dt| |]; cbn [bind]; try discriminate.
  destruct (mapM (read h (he3_prof tr)) psi) as [dh| |]; cbn [bind]; try discriminate.
  destruct (add_reactions _ _ _ _ _ _ _ _) as [[[[st nr] nn] w]| |]; cbn [bind]; try discriminate.
  intros E E1; injection E as <- <-. rewrite E1. reflexivity.
Qed.

(** Sauter's boundary without squareness, or Fausser's. *)
Definition unsquared (p : parameterisation) : Prop := match p with Fausser _ => True | Sauter i => squareness i = 0 end.

Lemma Forall2_len {A B} (Q : A -> B -> Prop) l l' : Forall2 Q l l' -> length l = length l'.
Proof. induction 1; cbn; congruence. Qed.

(** C74: for every accepted plasma shape, every temperature profile between 0 (excluded) and 40 keV, every positive fuel density, every cell size,
    every set of channels with at least one neutron source and every positive target, the source is built, delivers exactly the requested power, has
    cells only in the plasma, and converts to OpenMC rings whose strengths sum to 1. [psi] is the (scipy) interpolator of psi_norm. *)
Theorem C74_parameterised_source : forall m u p rho n cv plasma h iT ifuel rho' comp h' tr psi arg side P meth types,
  physical_masses m -> exothermic m -> 0 < amu_kg u -> 0 < keV_J u ->
  (* the plasma shape *)
  shape (info p) -> unsquared p -> (5 <= n)%nat -> from_parameterisation p rho n cv = Ok plasma ->
  (* the profiles *)
  (iT < length h)%nat -> (ifuel < length h)%nat ->
  (forall x, exists T, read h iT x = Ok T /\ 0 < T <= 40) -> (forall x, exists d, read h ifuel x = Ok d /\ 0 < d) ->
  0 < fD comp -> 0 < fT comp -> 0 <= fHe3 comp ->
  from_parameterisations h iT ifuel rho' comp = Ok (h', tr) ->
  (* the other arguments *)
  parse_source_type arg = Ok types -> (exists r, In r types /\ (0 < neutrons r)%nat) -> 0 < side -> 0 < P ->
  let lcfs := points (map_lcfs plasma) in
  let fm := {| fm_lcfs := lcfs; fm_o := (op_x (map_o_point plasma), op_z (map_o_point plasma)); fm_psi_norm := fun p => Ok (psi p) |} in
  exists s ws, make_source m u mpl_inside h' tr fm arg side (Some P) meth = Ok (s, ws) /\
    calculate_total_fusion_power m s = Ok P /\ source_type s = types /\ 0 < source_rate s /\
    (exists c, In c (cells s) /\ (sx c, sz c) = fm_o fm) /\
    (forall c, In c (cells s) -> in_polygon lcfs (sx c, sz c) /\ 0 < sx c /\ 0 < svol c) /\
    (forall T, In T (temperature s) -> 0 < T <= 40) /\
    (forall r, In r types -> exists st, dget (strength s) r = Some st /\ length st = length (cells s) /\
       forall x, In x st -> 0 <= x /\ (r <> DHe3 -> 0 < x)) /\
    (forall spec, spec <> SData -> exists srcs w, to_openmc_source tt_shipped s spec = Ok (srcs, w) /\
       total (map src_strength srcs) = 1 /\ length srcs = length (cells s) /\ (forall src, In src srcs -> 0 < src_strength src)).
Proof.
  intros m u p rho0 n cv0 plasma0 h iT ifuel rho' comp h' tr psi arg side P meth types Hm Ex Hu Hk Sh Uq Hn Ep0 LT Lf RT Rf PD PT PH Et Ea Hneu Hside HP.
  assert (G : exists i rho cv plasma, shape i /\ from_parameterisation (Fausser i) rho n cv = Ok plasma /\ points (map_lcfs plasma) = points (map_lcfs plasma0) /\ map_o_point plasma = map_o_point plasma0).
  { destruct p as [i|i]; [exists i, rho0, cv0, plasma0; auto|]. destruct (sauter_as_fausser i rho0 n cv0 plasma0 Sh Uq ltac:(lia) Ep0) as (m' & E' & El & Eo).
    exists i, [1], LINEAR, m'. auto. }
  clear p Sh Uq Ep0. destruct G as (i & rho & cv & plasma & Sh & Ep & <- & <-). intros lcfs fm.
  destruct (C25_from_parameterisations h iT ifuel rho' comp Lf) as (h1 & tr1 & E1 & _ & Hread). rewrite Et in E1. injection E1 as <- <-.
  destruct (C70_axis_inside i rho n cv plasma Sh Hn Ep) as [_ Ax]. destruct (Ax side Hside) as (cs & c0 & Ecs & Hc0 & Pc0). clear Ax.
  assert (RT' : forall x, exists T, read h' (temp_prof tr) x = Ok T /\ 0 < T <= 40).
  { intro x. destruct (Hread x) as (_ & _ & _ & Q). rewrite (Q LT). apply RT. }
  assert (Dpos : forall p x y, In p [d_prof tr; t_prof tr] -> read h' p x = Ok y -> 0 < y).
  { intros p x y Hp E. destruct (Hread x) as (Qd & Qt & _). destruct (Rf x) as (d & Ed & Pd). rewrite Ed in Qd, Qt. cbn [scaled] in Qd, Qt.
    destruct Hp as [<-|[<-|[]]]; rewrite ?Qd, ?Qt in E; injection E as <-; now apply Rmult_lt_0_compat. }
  assert (Hpos : forall x y, read h' (he3_prof tr) x = Ok y -> 0 <= y).
  { intros x y E. destruct (Hread x) as (_ & _ & Qh & _). destruct (Rf x) as (d & Ed & Pd). rewrite Ed in Qh. cbn [scaled] in Qh. rewrite Qh in E. injection E as <-. apply Rmult_le_pos; lra. }
  assert (Va : valid_arg arg) by (apply Classical_Prop.NNPP; intro N; rewrite (proj2 (parse_source_type_spec arg) N) in Ea; discriminate).
  destruct (C06_constructor_succeeds m u mpl_inside h' tr fm arg side meth cs Hm Hu Hk Va Ecs) as (s0 & ws & E0 & Ec).
  - intros ->. contradiction.
  - intros c _. eexists. reflexivity.
  - intro x. destruct (RT' x) as (T & E & R). exists T. split; [exact E|lra].
  - intros p x Hp. destruct (Hread x) as (Qd & Qt & Qh & _). destruct (Rf x) as (d & Ed & Pd). rewrite Ed in Qd, Qt, Qh. cbn [scaled] in *.
    destruct Hp as [<-|[<-|[<-|[]]]]; eauto.
  - assert (R0 : reachable m u s0) by (exists mpl_inside, h', tr, fm, arg, side, None, meth, s0, ws, []; split; [exact E0|reflexivity]).
    destruct (o_point_of i rho n cv plasma Ep) as (El & _).
    assert (Cv : convex_polygon lcfs) by (apply (C69_fausser_convex i 1.0 n); [exact Sh|lra|lia|exact El]).
    assert (Cell : forall c, In c (cells s0) -> in_polygon lcfs (sx c, sz c) /\ 0 < sx c /\ 0 < svol c).
    { rewrite Ec. intros c Hc.
      assert (I : in_polygon lcfs (sx c, sz c)) by (apply (C70_convex_sampling lcfs _ side cs Cv Hside Ecs); eauto).
      assert (X : 0 < sx c).
      { destruct (C28_distinct_lattice_cells_inside _ _ _ _ _ Hside Ecs) as [A _]. destruct (A c Hc) as [Ins _].
        destruct (C29_crossing_test_stays_in_box _ _ Ins) as ((v & Hv & Lv) & _). cbn [fst] in Lv.
        pose proof (proj1 (C37_bounds i 1.0 n _ v Sh ltac:(lra) El Hv)). lra. }
      split; [exact I|]. split; [exact X|]. now apply (C31_ring_volumes _ _ _ _ _ Hside Ecs c Hc). }
    assert (St : forall r st x, dget (strength s0) r = Some st -> In x st -> 0 <= x /\ (r <> DHe3 -> 0 < x)).
    { apply (strengths_positive m u mpl_inside h' tr fm arg side meth s0 ws Hm Hu Hk Hside E0); try assumption.
      - intros c Hc. now apply Cell.
      - intro x. destruct (RT' x) as (T & E & R). exists T. split; [exact E|lra]. }
    pose proof (make_bare_ok m u _ _ _ _ _ _ _ _ _ E0) as (Ety & _ & Esd & _ & _ & psis & dd & dt & dh & f & M1 & M2 & _ & _ & _ & C & _).
    assert (Ty : source_type s0 = types) by congruence.
    destruct Hneu as (rn & Hrn & Nn).
    assert (NH : rn <> DHe3) by (intros ->; vm_compute in Nn; lia).
    assert (Fpos : forall r, In r types -> (forall x, In x (f r) -> 0 <= x) /\ (r <> DHe3 -> 0 < total (f r)) /\ 0 <= total (f r)).
    { intros r Hr. assert (Q : dget (strength s0) r = Some (f r)). { destruct C as (_ & C1 & _). rewrite C1. apply dget_dmap_in. now rewrite Ty. }
      assert (N1 : forall x, In x (f r) -> 0 <= x) by (intros x Hx; now apply (St r (f r) x Q Hx)).
      split; [exact N1|]. split; [|now apply total_nonneg]. intro Nr. apply total_pos; [|intros x Hx; now apply (St r (f r) x Q Hx)].
      destruct C as (_ & _ & _ & _ & L). rewrite <- Ty in Hr. specialize (L r Hr). rewrite Ec in L. intro Z. rewrite Z in L. destruct cs; [contradiction|discriminate]. }
    assert (Pw : 0 < power m s0).
    { rewrite (power_eq m s0 f C), pysum_total, Ty. apply (total_pos_one _ (pysum (f rn) * total_energy m rn)).
      - intros x Hx. apply in_map_iff in Hx. destruct Hx as (r & <- & Hr). rewrite pysum_total. destruct (Fpos r Hr) as (_ & _ & F). specialize (Ex r). apply Rmult_le_pos; lra.
      - apply in_map_iff. eauto.
      - rewrite pysum_total. destruct (Fpos rn Hrn) as (_ & F & _). specialize (Ex rn). specialize (F NH). now apply Rmult_lt_0_compat. }
    destruct (C08_normalise_succeeds m u s0 P R0) as [_ Sn]. destruct (Sn ltac:(lra)) as [s E1].
    destruct (normalise_consistent m s0 f P s C E1) as (Es & _ & _).
    set (k := P / power m s0) in Es. assert (Kp : 0 < k) by (apply Rdiv_lt_0_compat; assumption).
    assert (Mk : make_source m u mpl_inside h' tr fm arg side (Some P) meth = Ok (s, ws)) by (exact (make_source_join m u _ _ _ _ _ _ P _ s0 ws s E0 E1)).
    assert (R1 : reachable m u s) by (exists mpl_inside, h', tr, fm, arg, side, (Some P), meth, s, ws, []; split; [exact Mk|reflexivity]).
    assert (C1 : consistent s (fun r => map (fun x => x * k) (f r))) by (rewrite Es; now apply times_consistent).
    assert (S1 : source_type s = types) by (rewrite Es; exact Ty).
    assert (K1 : cells s = cs) by (rewrite Es; exact Ec).
    assert (T1 : temperature s = temperature s0) by (rewrite Es; reflexivity).
    assert (St1 : forall r, In r types -> exists st, dget (strength s) r = Some st /\ length st = length (cells s) /\ forall x, In x st -> 0 <= x /\ (r <> DHe3 -> 0 < x)).
    { intros r Hr. destruct C1 as (_ & D & _ & _ & L). exists (map (fun x => x * k) (f r)). rewrite D. rewrite dget_dmap_in by now rewrite S1. split; [reflexivity|].
      split; [apply L; now rewrite S1|]. intros x Hx. apply in_map_iff in Hx. destruct Hx as (y & <- & Hy).
      assert (Q : dget (strength s0) r = Some (f r)). { destruct C as (_ & C1 & _). rewrite C1. apply dget_dmap_in. now rewrite Ty. }
      destruct (St r (f r) y Q Hy) as [A B]. split; [apply Rmult_le_pos; lra|]. intro Nr. specialize (B Nr). now apply Rmult_lt_0_compat. }
    assert (Tp : forall T, In T (temperature s) -> 0 < T <= 40).
    { rewrite T1. intros T HT. apply mapM_Ok_Forall2 in M2. clear - M2 HT RT'. induction M2 as [|a b l l' Hab _ IH]; [contradiction|]. destruct HT as [<-|HT]; [|now apply IH].
      destruct (RT' a) as (T' & E' & R'). assert (b = T') by congruence. now subst. }
    assert (Ns : no_sinks s).
    { intros r st x Q Hx. assert (Hr : In r types). { destruct C1 as (_ & D & _). rewrite D, dget_dmap in Q. destruct (memb r (source_type s)) eqn:Z; [|discriminate]. rewrite <- S1. now apply memb_In. }
      destruct (St1 r Hr) as (st' & Q' & _ & A). assert (st' = st) by congruence. subst st'. now apply A. }
    assert (Em : forall j, (j < length (cells s))%nat -> 0 < emission s j).
    { intros j Hj. unfold emission. apply (total_pos_one _ (channel_emission s rn j)).
      - intros x Hx. apply in_map_iff in Hx. destruct Hx as (r & <- & _). now apply channel_nonneg.
      - apply in_map_iff. exists rn. split; [reflexivity|now rewrite S1].
      - unfold channel_emission. destruct (St1 rn Hrn) as (st & Q & L & A). rewrite Q. apply Rmult_lt_0_compat; [now apply lt_0_INR|]. apply A; [apply nth_In; congruence|exact NH]. }
    assert (Le : length (cells s) <> 0%nat) by (rewrite K1; destruct cs; [contradiction|discriminate]).
    assert (Sr : 0 < source_rate s).
    { rewrite <- (emission_total s _ C1). apply total_pos; [destruct (length (cells s)); [congruence|discriminate]|].
      intros x Hx. apply in_map_iff in Hx. destruct Hx as (j & <- & Hj). apply in_seq in Hj. apply Em. lia. }
    assert (Ce1 : forall c, In c (cells s) -> in_polygon lcfs (sx c, sz c) /\ 0 < sx c /\ 0 < svol c) by (rewrite K1, <- Ec; exact Cell).
    exists s, ws. split; [exact Mk|]. split; [exact (proj1 (C08_power_reaches_target m u s0 P s R0 E1))|]. split; [exact S1|]. split; [exact Sr|].
    split; [exists c0; rewrite K1; split; [exact Hc0|exact Pc0]|]. split; [exact Ce1|]. split; [exact Tp|]. split; [exact St1|].
    intros spec Hs. destruct (C54_conversion_succeeds m u s spec R1 Ns Sr Hs Tp) as (srcs & w & Eo).
    { intros c Hc. pose proof (proj1 (proj2 (Ce1 c Hc))). lra. }
    destruct (C51_strengths_sum_to_one m u tt_shipped s spec srcs w R1 Ns Sr Eo) as [F2 Sum].
    exists srcs, w. split; [exact Eo|]. split; [exact Sum|].
    assert (Al : emitting s = seq 0 (length (cells s))).
    { unfold emitting. assert (G : forall l, (forall j, In j l -> 0 < emission s j) -> filter (fun j => Rltb 0 (emission s j)) l = l).
      { induction l as [|j l IH]; intro H; [reflexivity|]. cbn [filter]. rewrite (proj2 (Rltb_true _ _) (H j (or_introl eq_refl))). f_equal. apply IH. intros; apply H; now right. }
      apply G. intros j Hj. apply in_seq in Hj. apply Em. lia. }
    rewrite Al in F2. split; [rewrite <- (Forall2_len _ _ _ F2); apply seq_length|].
    intros src Hin. apply In_nth_error in Hin. destruct Hin as [j Hj].
    assert (exists j', 0 < emission s j' /\ src_strength src * source_rate s = emission s j') as (j' & Pj & Qj).
    { clear - F2 Hj Em. assert (A : forall j, In j (seq 0 (length (cells s))) -> 0 < emission s j) by (intros q Hq; apply in_seq in Hq; apply Em; lia). clear Em.
      revert j Hj. induction F2 as [|a b l l' Hab _ IH]; intros [|j]; cbn; try discriminate.
      - intro Q; injection Q as ->. exists a. split; [apply A; now left|exact Hab].
      - apply IH. intros; apply A; now right. }
    apply (Rmult_lt_reg_r (source_rate s)); [exact Sr|]. lra.
Qed.
Print Assumptions C74_parameterised_source.

(** A concrete tokamak meets all hypotheses: R = 3 m, a = 1 m, pedestal profiles, 50-50 fuel, D-T and D-D channels, 2 GW. *)
Example C74_example : exists plasma h' tr s ws,
  let h := [pedestal_profile 25 5 (1/10) 1.5 2 0.9; pedestal_profile 8e19 6e19 2e19 1 2 0.9] in
  (exists i, from_parameterisation (Fausser i) [1/4; 1/2; 3/4; 1] 50 LINEAR = Ok plasma) /\
  from_parameterisations h 0%nat 1%nat [0; 1] {| fD := 1/2; fT := 1/2; fHe3 := 0 |} = Ok (h', tr) /\
  make_source nominal_masses nominal_units mpl_inside h' tr
    {| fm_lcfs := points (map_lcfs plasma); fm_o := (op_x (map_o_point plasma), op_z (map_o_point plasma)); fm_psi_norm := fun p => Ok (Rabs (snd p)) |}
    (SList [IStr "D-T"%string; IStr "D-D"%string]) (1/10) (Some 2e9) MAuto = Ok (s, ws) /\ 0 < source_rate s.
Proof.
  destruct shape_example as (i & _ & Sh & _).
  destruct (C42_nodes_and_labels (Fausser i) [1/4; 1/2; 3/4; 1] 50 LINEAR Sh ltac:(lia)) as (plasma & it & Em & _); [exists 1; cbn; split; [auto|lra]|].
  set (h := [pedestal_profile 25 5 (1/10) 1.5 2 0.9; pedestal_profile 8e19 6e19 2e19 1 2 0.9]).
  destruct (C25_from_parameterisations h 0%nat 1%nat [0; 1] {| fD := 1/2; fT := 1/2; fHe3 := 0 |} ltac:(cbn; lia)) as (h' & tr & Et & _).
  assert (B : forall core ped sep alpha beta rp, 0 < alpha -> 0 < beta -> 0 < sep <= ped -> ped <= core -> forall x, exists v, value (pedestal_profile core ped sep alpha beta rp) x = Ok v /\ sep <= v <= core).
  { intros core ped sep al be rp Ha Hb H1 H2 x. destruct (C21_pedestal_shape core ped sep al be rp Ha Hb) as (f & Ef & _ & _ & _ & _ & Bd & _).
    exists (f x). split; [apply Ef|]. specialize (Bd x). rewrite (Rmin_right ped sep), (Rmin_right core sep), (Rmax_left ped sep), (Rmax_left core ped) in Bd by lra. exact Bd. }
  destruct (C74_parameterised_source nominal_masses nominal_units (Fausser i) [1/4; 1/2; 3/4; 1] 50 LINEAR plasma h 0%nat 1%nat [0; 1] {| fD := 1/2; fT := 1/2; fHe3 := 0 |} h' tr
    (fun p => Rabs (snd p)) (SList [IStr "D-T"%string; IStr "D-D"%string]) (1/10) 2e9 MAuto [DT; DDn; DDp]) as (s & ws & Es & _ & _ & Sr & _).
  - unfold physical_masses; cbn [nominal_masses mD mT mHe3]; lra.
  - intros []; unfold total_energy, E_DT, E_DD_TP, E_DD_HE3N, E_TT, E_DHE3; cbn [nominal_masses mD mT mHe mHe3 mn mp me amu_J]; lra.
  - cbn [nominal_units amu_kg]; lra.
  - cbn [nominal_units keV_J]; lra.
  - exact Sh.
  - exact I.
  - lia.
  - exact Em.
  - unfold h; cbn [length]; lia.
  - unfold h; cbn [length]; lia.
  - intro x. destruct (B 25 5 (1/10) 1.5 2 0.9 ltac:(lra) ltac:(lra) ltac:(lra) ltac:(lra) x) as (v & Ev & Bv). exists v. split; [exact Ev|lra].
  - intro x. destruct (B 8e19 6e19 2e19 1 2 0.9 ltac:(lra) ltac:(lra) ltac:(lra) ltac:(lra) x) as (v & Ev & Bv). exists v. split; [exact Ev|lra].
  - cbn [fD]; lra.
  - cbn [fT]; lra.
  - cbn [fHe3]; lra.
  - exact Et.
  - reflexivity.
  - exists DT. split; [now left|]. vm_compute. lia.
  - lra.
  - lra.
  - exists plasma, h', tr, s, ws. split; [exists i; exact Em|]. split; [exact Et|]. split; [exact Es|exact Sr].
Qed.
