(** Properties C51-C54, C65, C66: the OpenMC source. *)
From Coq Require Import String.
From Verif Require Import Base Reactions SpecReactions ReactionsProofs Space SpecSpace SpaceProofs P_Space Source SpecSource SourceProofs P_Source Reactivity SpecReactivity P_Reactivity
  SpectraData Energy SpecEnergy EnergyProofs P_Energy LogFilter OpenMC SpecOpenMC OpenMCProofs.

Lemma openmc_unfold m u d s meth srcs w : reachable m u s -> no_sinks s -> 0 < source_rate s -> to_openmc_source d s meth = Ok (srcs, w) ->
  Forall2 (fun i src => exists c T ds, nth_error (cells s) i = Some c /\ nth_error (temperature s) i = Some T /\
      ring_shape (cell_side s / 2) (sx c, sz c) src /\ sx c <> 0 /\ src_strength src = emission s i / source_rate s /\
      src_energy src = Mixture (map (fun r => channel_emission s r i / emission s i) (emitting_channels s i)) ds /\
      Forall2 (fun r u => expected_distribution d meth r T u) (emitting_channels s i) ds)
    (emitting s) srcs.
Proof.
  intros Hr Hs Hq E. pose proof (reachable_lengths m u s Hr) as LT. destruct (reachable_consistent m u s Hr) as (f & C). pose proof C as (N & E1 & E2 & E3 & L).
  unfold to_openmc_source, make_openmc_full_combined_source in E.
  assert (Q : (match num_neutrons_ps s with [] => RInt0 | _ => RFloat (source_rate s) end) = RFloat (source_rate s)).
  { unfold source_rate in Hq. destruct (num_neutrons_ps s); [cbn in Hq; lra|reflexivity]. }
  rewrite Q, E1, n_strength_dmap in E.
  match type of E with context [rings _ _ _ _ _ _ ?c] => set (cs := c) in E end.
  match type of E with context [rings ?a ?b ?c ?e ?g ?h ?k] => destruct (rings a b c e g h k) as [[srcs' w']| |] eqn:Er end; cbn [bind] in E; try discriminate.
  injection E as <- _.
  assert (Lc : length cs = length (cells s)). { unfold cs. rewrite !combine_length, !map_length, LT. unfold sample. lia. }
  assert (F := rings_ok d meth (cell_side s / 2) (nfun f) (filter is_neutronic (source_type s)) (source_rate s) cs Hq 0 srcs' w').
  rewrite Lc in F. assert (F' := F ltac:(intros r H; apply filter_In in H; unfold nfun; rewrite map_length, (L r) by apply H; lia) Er). clear F.
  rewrite (filter_ext_in' _ (fun i => Rltb 0 (emission s i))) in F'.
  2:{ intros i _. symmetry. now apply emitting_weights. }
  fold (emitting s) in F'. eapply Forall2_impl; [|exact F']. cbn beta.
  intros i src (c & Hc & Sh & R0 & St & ds & En & Fd). rewrite Nat.sub_0_r in Hc.
  assert (Nc : exists c0 T, nth_error (cells s) i = Some c0 /\ nth_error (temperature s) i = Some T /\ c = ((sx c0, sz c0), T)).
  { unfold cs in Hc. clear -Hc LT. revert i c Hc LT. generalize (temperature s) as ts. induction (cells s) as [|c0 l IH]; intros ts i c Hc LT; [destruct i; discriminate|].
    destruct ts as [|T ts]; [discriminate|]. destruct i as [|i]; cbn in *; [injection Hc as <-; exists c0, T; auto|]. apply (IH ts i c Hc). lia. }
  destruct Nc as (c0 & T & H1 & H2 & ->). exists c0, T, ds. cbn [fst snd] in *.
  rewrite (weights_sum s f i C Hs) in *. rewrite (weights_channels s f i C), map_map in En. rewrite (channels_filter s f i C) in Fd. auto 10.
Qed.

(** C51 *)
Theorem C51_strengths_sum_to_one : forall m u d s meth srcs w, reachable m u s -> no_sinks s -> 0 < source_rate s ->
  to_openmc_source d s meth = Ok (srcs, w) ->
  Forall2 (fun i src => src_strength src * source_rate s = emission s i) (emitting s) srcs /\
  total (map src_strength srcs) = 1.
Proof.
  intros m u d s meth srcs w Hr Hs Hq E. pose proof (openmc_unfold m u d s meth srcs w Hr Hs Hq E) as F.
  assert (F1 : Forall2 (fun i src => src_strength src * source_rate s = emission s i) (emitting s) srcs).
  { eapply Forall2_impl; [|exact F]. cbn beta. intros i src (c & T & ds & _ & _ & _ & _ & -> & _). field. lra. }
  split; [exact F1|]. apply (Rmult_eq_reg_r (source_rate s)); [|lra].
  assert (S : total (map src_strength srcs) * source_rate s = total (map (emission s) (emitting s))).
  { clear F E. induction F1 as [|i src l l' H _ IH]; cbn [map total]; [ring|]. rewrite <- IH, <- H. ring. }
  rewrite S, Rmult_1_l. destruct (reachable_consistent m u s Hr) as (f & C). rewrite <- (emission_total s f C). apply total_positive_part.
  intros i _. apply total_nonneg'. intros r _. now apply channel_nonneg.
Qed.
Print Assumptions C51_strengths_sum_to_one.

(** C52 *)
Theorem C52_energy_mixture : forall m u d s meth srcs w, reachable m u s -> no_sinks s -> 0 < source_rate s ->
  to_openmc_source d s meth = Ok (srcs, w) ->
  Forall2 (fun i src => exists T probs ds, nth_error (temperature s) i = Some T /\ src_energy src = Mixture probs ds /\
      probs = map (fun r => channel_emission s r i / emission s i) (emitting_channels s i) /\
      Forall (fun p => 0 < p) probs /\ total probs = 1 /\
      Forall2 (fun r u => expected_distribution d meth r T u) (emitting_channels s i) ds) (emitting s) srcs /\
  (forall r i, In r (emitting_channels s i) -> In r (source_type s) /\ (0 < neutrons r)%nat).
Proof.
  intros m u d s meth srcs w Hr Hs Hq E. pose proof (openmc_unfold m u d s meth srcs w Hr Hs Hq E) as F. split.
  - assert (G : forall l l', (forall i, In i l -> 0 < emission s i) ->
      Forall2 (fun i src => exists c T ds, nth_error (cells s) i = Some c /\ nth_error (temperature s) i = Some T /\
        ring_shape (cell_side s / 2) (sx c, sz c) src /\ sx c <> 0 /\ src_strength src = emission s i / source_rate s /\
        src_energy src = Mixture (map (fun r => channel_emission s r i / emission s i) (emitting_channels s i)) ds /\
        Forall2 (fun r u => expected_distribution d meth r T u) (emitting_channels s i) ds) l l' ->
      Forall2 (fun i src => exists T probs ds, nth_error (temperature s) i = Some T /\ src_energy src = Mixture probs ds /\
        probs = map (fun r => channel_emission s r i / emission s i) (emitting_channels s i) /\
        Forall (fun p => 0 < p) probs /\ total probs = 1 /\ Forall2 (fun r u => expected_distribution d meth r T u) (emitting_channels s i) ds) l l').
    { intros l l' Hl. induction 1 as [|i src l l' (c & T & ds & _ & HT & _ & _ & _ & En & Fd) _ IH]; constructor; [|apply IH; intros; apply Hl; now right].
      assert (Pe : 0 < emission s i) by (apply Hl; now left).
      exists T, (map (fun r => channel_emission s r i / emission s i) (emitting_channels s i)), ds.
      split; [exact HT|]. split; [exact En|]. split; [reflexivity|]. split; [|split; [|exact Fd]].
      - apply Forall_map, Forall_forall. intros r Hin. apply filter_In in Hin. destruct Hin as [_ Hin]. apply Rltb_true in Hin. now apply Rdiv_lt_0_compat.
      - rewrite (map_ext _ (fun r => / emission s i * channel_emission s r i)) by (intro; unfold Rdiv; ring). rewrite total_scale.
        unfold emitting_channels. rewrite total_positive_part by (intros; now apply channel_nonneg). fold (emission s i). apply Rinv_l. lra. }
    apply G; [|exact F]. intros i Hi. apply filter_In in Hi. now apply Rltb_true.
  - intros r i H. apply filter_In in H. destruct H as [Hin H]. split; [exact Hin|]. apply Rltb_true in H.
    destruct (Nat.eq_0_gt_0_cases (neutrons r)) as [Z|Z]; [|exact Z]. exfalso. rewrite neutrons_label in Z. rewrite aneutronic_silent in H; [lra|]. destruct r; cbn in *; congruence.
Qed.
Print Assumptions C52_energy_mixture.

(** C53: the geometry of each ring, in cm. *)
Theorem C53_ring_geometry : forall m u d s meth srcs w, reachable m u s -> no_sinks s -> 0 < source_rate s ->
  to_openmc_source d s meth = Ok (srcs, w) ->
  Forall2 (fun i src => exists c, nth_error (cells s) i = Some c /\
      let r_in := 100 * (sx c - cell_side s / 2) in let r_out := 100 * (sx c + cell_side s / 2) in
      exists p_in p_out, src_r src = Tabular [r_in; r_out] [p_in; p_out] /\
        src_z src = Uniform (100 * (sz c - cell_side s / 2)) (100 * (sz c + cell_side s / 2)) /\
        src_phi src = Uniform 0 (2 * PI) /\ src_origin src = (0, 0, 0) /\
        p_in + p_out = 1 /\ p_in * r_out = p_out * r_in /\
        (0 < cell_side s -> cell_side s / 2 <= sx c -> 0 <= p_in /\ 0 < p_out)) (emitting s) srcs.
Proof.
  intros m u d s meth srcs w Hr Hs Hq E. eapply Forall2_impl; [|exact (openmc_unfold m u d s meth srcs w Hr Hs Hq E)]. cbn beta.
  intros i src (c & T & ds & Hc & _ & (S1 & S2 & S3 & S4) & R0 & _). exists c. split; [exact Hc|]. cbv zeta. cbn [fst snd] in *.
  set (r_in := 100 * (sx c - cell_side s / 2)) in *. set (r_out := 100 * (sx c + cell_side s / 2)) in *.
  assert (Sum : r_in + r_out = 200 * sx c) by (unfold r_in, r_out; lra). assert (Z : r_in + r_out <> 0) by (rewrite Sum; lra).
  exists (r_in / (r_in + r_out)), (r_out / (r_in + r_out)). repeat (split; [assumption|]). split; [field; exact Z|]. split; [field; exact Z|].
  intros Hp Hx. assert (0 < r_in + r_out) by (rewrite Sum; lra). split.
  - apply Rmult_le_pos; [unfold r_in; lra|left; now apply Rinv_0_lt_compat].
  - apply Rdiv_lt_0_compat; [unfold r_out; lra|assumption].
Qed.
Print Assumptions C53_ring_geometry.

(** Such a density, zero at the axis when extended, makes the fraction of neutrons born inside radius x the fraction of the
    ring's volume inside x: emission is uniform per unit volume. *)
Theorem C53_uniform_per_volume : forall r_in r_out p_in p_out x, 0 <= r_in -> r_in < r_out -> r_in <= x <= r_out ->
  p_in + p_out = 1 -> p_in * r_out = p_out * r_in ->
  area_under_line r_in p_in r_out p_out x / area_under_line r_in p_in r_out p_out r_out = (x ^ 2 - r_in ^ 2) / (r_out ^ 2 - r_in ^ 2).
Proof.
  intros a b p q x Ha Hab Hx Hs Hp. assert (S : 0 < a + b) by lra. assert (p = a / (a + b)) as ->. { apply (Rmult_eq_reg_r (a + b)); [|lra]. unfold Rdiv. rewrite Rmult_assoc, Rinv_l, Rmult_1_r by lra. rewrite Rmult_plus_distr_l, Hp. replace q with (1 - p) by lra. lra. }
  replace q with (b / (a + b)). 2:{ assert (a / (a + b) + b / (a + b) = 1) by (field; lra). lra. }
  unfold area_under_line. assert (b ^ 2 - a ^ 2 <> 0). { assert (0 < (b - a) * (a + b)) by (apply Rmult_lt_0_compat; lra). lra. }
  field. repeat split; lra.
Qed.
Print Assumptions C53_uniform_per_volume.

(** A cell whose inner edge is on the wrong side of the axis gets a negative tabulated probability. *)
Theorem C53_axis_cell_negative : forall r z l2 u k src, 0 < r < l2 -> make_openmc_ring_source r z l2 u k = Ok (Some src) ->
  exists r_in r_out p_in p_out, src_r src = Tabular [r_in; r_out] [p_in; p_out] /\ r_in < 0 /\ p_in < 0.
Proof.
  intros r z l2 u k src Hr E. destruct (ring_source_ok r z l2 u k (Some src) E) as [A B].
  destruct (Rlt_le_dec 0 k) as [Hk|Hk]; [|now specialize (B Hk)]. destruct (A Hk) as (_ & src' & Es & (S1 & _) & _). injection Es as <-. cbn [fst snd] in S1.
  eexists _, _, _, _. split; [exact S1|]. split; [lra|]. assert (0 < / (100 * (r - l2) + 100 * (r + l2))) by (apply Rinv_0_lt_compat; lra). unfold Rdiv. nra.
Qed.
Print Assumptions C53_axis_cell_negative.

(** C54: one source per emitting cell, in cell order, at that cell. *)
Theorem C54_one_source_per_emitting_cell : forall m u d s meth srcs w, reachable m u s -> no_sinks s -> 0 < source_rate s ->
  to_openmc_source d s meth = Ok (srcs, w) ->
  length srcs = length (emitting s) /\
  (forall i, In i (emitting s) <-> (i < length (cells s))%nat /\ 0 < emission s i) /\
  Forall2 (fun i src => 0 < src_strength src /\ exists c, nth_error (cells s) i = Some c /\
     src_z src = Uniform (100 * (sz c - cell_side s / 2)) (100 * (sz c + cell_side s / 2))) (emitting s) srcs.
Proof.
  intros m u d s meth srcs w Hr Hs Hq E. pose proof (openmc_unfold m u d s meth srcs w Hr Hs Hq E) as F.
  assert (In_ : forall i, In i (emitting s) <-> (i < length (cells s))%nat /\ 0 < emission s i).
  { intro i. unfold emitting. rewrite filter_In, in_seq, Rltb_true. intuition lia. }
  split; [symmetry; eapply Forall2_length, F|]. split; [exact In_|].
  assert (G : forall l, (forall i, In i l -> In i (emitting s)) -> forall l', Forall2 (fun i src => exists c T ds, nth_error (cells s) i = Some c /\ nth_error (temperature s) i = Some T /\
      ring_shape (cell_side s / 2) (sx c, sz c) src /\ sx c <> 0 /\ src_strength src = emission s i / source_rate s /\
      src_energy src = Mixture (map (fun r => channel_emission s r i / emission s i) (emitting_channels s i)) ds /\
      Forall2 (fun r u => expected_distribution d meth r T u) (emitting_channels s i) ds) l l' ->
    Forall2 (fun i src => 0 < src_strength src /\ exists c, nth_error (cells s) i = Some c /\
     src_z src = Uniform (100 * (sz c - cell_side s / 2)) (100 * (sz c + cell_side s / 2))) l l'); [|apply G; auto].
  intros l Hl l'. induction 1 as [|i src l l' (c & T & ds & Hc & _ & (_ & _ & S3 & _) & _ & St & _) _ IH]; constructor; [|apply IH; intros; apply Hl; now right].
  split; [|exists c; auto]. rewrite St. apply Rdiv_lt_0_compat; [apply In_, Hl; now left|exact Hq].
Qed.
Print Assumptions C54_one_source_per_emitting_cell.

(** A source that emits no neutrons gives an empty list; one without channels raises. *)
Theorem C54_nothing_emitted : forall m u d s meth, reachable m u s -> no_sinks s -> source_rate s = 0 ->
  (source_type s <> [] -> to_openmc_source d s meth = Ok ([], [])) /\
  (source_type s = [] -> cells s <> [] -> to_openmc_source d s meth = Err EZeroDivision).
Proof.
  intros m u d s meth Hr Hs Hq. pose proof (reachable_lengths m u s Hr) as LT. destruct (reachable_consistent m u s Hr) as (f & C). pose proof C as (N & E1 & E2 & E3 & L).
  unfold to_openmc_source, make_openmc_full_combined_source. rewrite E1, n_strength_dmap.
  match goal with |- context [rings _ _ _ _ _ _ ?c] => set (cs := c) end.
  assert (Lc : length cs = length (cells s)). { unfold cs. rewrite !combine_length, !map_length, LT. unfold sample. lia. }
  split; intro Ht.
  - assert (Q : (match num_neutrons_ps s with [] => RInt0 | _ => RFloat (source_rate s) end) = RFloat 0).
    { rewrite Hq, E3. destruct (source_type s); [congruence|reflexivity]. } rewrite Q.
    assert (Z : forall i, (i < length (cells s))%nat -> forall r, In r (filter is_neutronic (source_type s)) -> nth i (nfun f r) 0 = 0).
    { intros i Hi r Hin. apply filter_In in Hin. destruct Hin as [Hin _]. rewrite <- (channel_emission_f s f r i C Hin).
      rewrite <- (emission_total s f C), <- pysum_total in Hq. apply pysum_nonneg_zero in Hq.
      - rewrite Forall_map, Forall_forall in Hq. specialize (Hq i ltac:(apply in_seq; lia)). unfold emission in Hq. rewrite <- pysum_total in Hq.
        apply pysum_nonneg_zero in Hq; [|apply Forall_map, Forall_forall; intros; now apply channel_nonneg]. rewrite Forall_map, Forall_forall in Hq. now apply Hq.
      - apply Forall_map, Forall_forall. intros j _. apply total_nonneg'. intros; now apply channel_nonneg. }
    assert (G : forall l i, (i + length l <= length (cells s))%nat -> rings d meth (cell_side s / 2) (dmap (nfun f) (filter is_neutronic (source_type s))) (RFloat 0) i l = Ok ([], [])).
    { induction l as [|c l IH]; intros i Hi; [reflexivity|]. cbn [rings length] in *. unfold ring. destruct c as [[ri zi] ti].
      assert (Rc : forall types, (forall r, In r types -> nth i (nfun f r) 0 = 0 /\ (i < length (nfun f r))%nat) -> ring_channels d meth i ti (dmap (nfun f) types) = Ok ([], [], [])).
      { induction types as [|r types IHt]; intro Hz; [reflexivity|]. cbn [dmap map ring_channels]. destruct (Hz r (or_introl eq_refl)) as [Z0 Zl].
        rewrite (nth_error_nth' (nfun f r) 0) by exact Zl. rewrite Z0. cbn [bind]. destruct (Rltb_spec 0 0); [lra|]. apply IHt. intros; apply Hz; now right. }
      rewrite Rc. 2:{ intros r Hin. split; [apply Z; [lia|exact Hin]|]. apply filter_In in Hin. unfold nfun. rewrite map_length, (L r) by apply Hin. lia. }
      cbn [bind mapM share]. rewrite Reqb_refl. cbn [bind]. rewrite IH by lia. reflexivity. }
    rewrite G by lia. reflexivity.
  - intro Hc. rewrite E3, Ht. cbn [filter dmap map]. destruct cs as [|[[ri zi] ti] cs']; [destruct (cells s); [congruence|discriminate]|]. reflexivity.
Qed.
Print Assumptions C54_nothing_emitted.

(** Success for every plasma up to 40 keV with the shipped T-T data, with any method but DATA. *)
Theorem C54_conversion_succeeds : forall m u s meth, reachable m u s -> no_sinks s -> 0 < source_rate s -> meth <> SData ->
  (forall T, In T (temperature s) -> 0 < T <= 40) -> (forall c, In c (cells s) -> sx c <> 0) ->
  exists srcs w, to_openmc_source tt_shipped s meth = Ok (srcs, w).
Proof.
  intros m u s meth Hr Hs Hq Hm HT Hx. pose proof (reachable_lengths m u s Hr) as LT. destruct (reachable_consistent m u s Hr) as (f & C). pose proof C as (N & E1 & E2 & E3 & L).
  unfold to_openmc_source, make_openmc_full_combined_source. rewrite E1, n_strength_dmap.
  assert (Q : (match num_neutrons_ps s with [] => RInt0 | _ => RFloat (source_rate s) end) = RFloat (source_rate s)).
  { unfold source_rate in Hq. destruct (num_neutrons_ps s); [cbn in Hq; lra|reflexivity]. } rewrite Q.
  assert (Sp : forall r T, is_neutronic r = true -> 0 < T <= 40 -> exists u w, get_neutron_energy_spectrum tt_shipped r T meth = Ok (u, w)).
  { generalize tt_shipped (C50_every_temperature). intros d Htt r T Hn HTT.
    assert (Btt : forall x : res (option (list R * list R) * list swarning), (exists e p w, x = Ok (Some (e, p), w)) -> exists uu w, (do (s0, w0) <- x; match s0 with None => Err EType | Some (energy, probability) => Ok (Tabular (map keV_to_eV energy) probability, w0) end) = Ok (uu, w)).
    { intros x (e & p & w & ->). cbn [bind]. eauto. }
    destruct (Htt T) as (e & p & w & E & _).
    destruct r; try discriminate.
    - unfold get_neutron_energy_spectrum. cbn [ballabio_spectrum]. destruct (mean_ok DT T) as (M & Sd & _); [now left|lra|discriminate|]. cbn [spectrum_of] in *.
      destruct meth; [congruence| | |]; try (apply Btt).
      + rewrite M, Sd. cbn [bind]. eauto.
      + destruct (C48_modified_gaussian d DT T) as (_ & _ & _ & e' & p' & c & E' & _); [now left|exact HTT|]. eauto.
      + destruct (C48_modified_gaussian d DT T) as (_ & _ & _ & e' & p' & c & E' & _); [now left|exact HTT|]. exists e', p', []. exact E'.
    - unfold get_neutron_energy_spectrum. cbn [ballabio_spectrum]. destruct (mean_ok DDn T) as (M & Sd & _); [now right|lra|lra|]. cbn [spectrum_of] in *.
      destruct meth; [congruence| | |]; try (apply Btt).
      + rewrite M, Sd. cbn [bind]. eauto.
      + destruct (C48_modified_gaussian d DDn T) as (_ & _ & _ & e' & p' & c & E' & _); [now right|exact HTT|]. eauto.
      + destruct (C48_modified_gaussian d DDn T) as (_ & _ & _ & e' & p' & c & E' & _); [now right|exact HTT|]. exists e', p', []. exact E'.
    - unfold get_neutron_energy_spectrum. cbn [ballabio_spectrum]. destruct (C49_dispatch d T) as (_ & D1 & D2 & _).
      destruct meth; [congruence| | |]; apply Btt.
      + exists e, p, (WNoBallabio TT :: w). apply D2; [now left|exact E].
      + exists e, p, (WNoBallabio TT :: w). apply D2; [now right|exact E].
      + exists e, p, w. rewrite D1. exact E. }
  revert Sp. generalize tt_shipped. intros d Sp.
  match goal with |- context [rings _ _ _ _ _ _ ?c] => set (cs := c) end.
  assert (Lc : length cs = length (cells s)). { unfold cs. rewrite !combine_length, !map_length, LT. unfold sample. lia. }
  assert (Hcs : forall c, In c cs -> fst (fst c) <> 0 /\ 0 < snd c <= 40).
  { intros [[a b] T] Hin. cbn [fst snd]. pose proof (in_combine_l _ _ _ _ Hin) as A. apply in_combine_r in Hin. split; [|now apply HT].
    apply in_combine_l in A. apply in_map_iff in A. destruct A as (c & <- & Hc). now apply Hx. }
  assert (G : forall l i, (i + length l <= length (cells s))%nat -> (forall c, In c l -> fst (fst c) <> 0 /\ 0 < snd c <= 40) ->
    exists o, rings d meth (cell_side s / 2) (dmap (nfun f) (filter is_neutronic (source_type s))) (RFloat (source_rate s)) i l = Ok o).
  { induction l as [|c l IH]; intros i Hi Hl; [eexists; reflexivity|]. cbn [rings length] in *. destruct (IH (S i) ltac:(lia) ltac:(intros; apply Hl; now right)) as [[o w] Eo].
    destruct (Hl c (or_introl eq_refl)) as [Hxc HTc]. destruct c as [[ri zi] ti]. cbn [fst snd] in *.
    assert (Rg : exists x, ring d meth (cell_side s / 2) (dmap (nfun f) (filter is_neutronic (source_type s))) (RFloat (source_rate s)) i ((ri, zi), ti) = Ok x).
    { unfold ring. assert (Rc : forall types, (forall r, In r types -> is_neutronic r = true /\ (i < length (nfun f r))%nat) -> exists x, ring_channels d meth i ti (dmap (nfun f) types) = Ok x).
      { induction types as [|r types IHt]; intro Hz; [eexists; reflexivity|]. cbn [dmap map ring_channels]. destruct (Hz r (or_introl eq_refl)) as [Z0 Zl].
        rewrite (nth_error_nth' (nfun f r) 0) by exact Zl. cbn [bind]. destruct IHt as [[[ws ds] w'] Et]; [intros; apply Hz; now right|].
        change (map (fun r => (r, nfun f r)) types) with (dmap (nfun f) types). rewrite Et. destruct (Rltb 0 (nth i (nfun f r) 0)); [|eauto].
        destruct (Sp r ti Z0 HTc) as (uu & w0 & ->). cbn [bind]. eauto. }
      destruct (Rc (filter is_neutronic (source_type s))) as [[[ws ds] w'] Er].
      { intros r Hin. apply filter_In in Hin. split; [apply Hin|]. unfold nfun. rewrite map_length, (L r) by apply Hin. lia. }
      rewrite Er. cbn [bind]. destruct (ring_channels_ok d meth i ti (nfun f) _ ws ds w' ltac:(intros r Hin; apply filter_In in Hin; unfold nfun; rewrite map_length, (L r) by apply Hin; lia) Er) as [Ews _].
      fold (weights_at (nfun f) i (filter is_neutronic (source_type s))) in Ews.
      assert (P1 : exists pr, mapM (fun x => np_div x (pysum ws)) ws = Ok pr).
      { destruct ws as [|x ws0]; [eexists; reflexivity|]. assert (Pos : 0 < pysum (x :: ws0)). { apply positive_sum; [|discriminate]. rewrite Ews. apply weights_pos. }
        generalize (x :: ws0) at 2. induction l0 as [|y l0 IH0]; [eexists; reflexivity|]. cbn [mapM]. rewrite np_div_ok by lra. destruct IH0 as [pr ->]. cbn [bind]. eauto. }
      destruct P1 as [pr ->]. cbn [bind].
      assert (P2 : exists x, share ws (RFloat (source_rate s)) = Ok (Some x)).
      { destruct ws; cbn [share]; [destruct (Reqb_spec (source_rate s) 0); [lra|eauto]|]. rewrite np_div_ok by lra. cbn [bind]. eauto. }
      destruct P2 as [x ->]. cbn [bind]. unfold make_openmc_ring_source. destruct (Rltb 0 x); [|eexists; reflexivity].
      cbn [map mapM]. unfold m_to_cm. rewrite !pysum_cons, pysum_nil. rewrite !np_div_ok by lra. cbn [bind]. eauto. }
    destruct Rg as [[o1 w1] ->]. cbn [bind]. rewrite Eo. cbn [bind]. eauto. }
  destruct (G cs 0%nat ltac:(lia) Hcs) as [[o w] ->]. cbn [bind]. eauto.
Qed.
Print Assumptions C54_conversion_succeeds.

(** C65: the tables handed to OpenMC list densities per keV against energies in eV: they integrate to 1000. *)
Theorem C65_tables_integrate_to_1000 : forall d meth r T x p, expected_distribution d meth r T (Tabular x p) -> density_integral (Tabular x p) = 1000.
Proof.
  intros d meth r T x p H. inversion H as [|e p' w _ E]; subst. pose proof (C45_energy_spectrum_normalised _ _ _ _ _ _ _ E) as [_ I]. cbn [density_integral].
  assert (G : forall (e p : list R), integral (combine (map (fun x => 1000 * x) e) p) = 1000 * integral (combine e p)).
  { clear. induction e as [|a e IH]; intros [|b p]; [cbn; ring..|].
    destruct e as [|a' e]; [cbn; ring|]. destruct p as [|b' p]; [cbn; ring|].
    specialize (IH (b' :: p)). cbn [map combine] in *.
    change (integral ((1000 * a, b) :: (1000 * a', b') :: combine (map (fun x => 1000 * x) e) p)) with
      ((1000 * a' - 1000 * a) * (b + b') / 2 + integral ((1000 * a', b') :: combine (map (fun x => 1000 * x) e) p)).
    change (integral ((a, b) :: (a', b') :: combine e p)) with ((a' - a) * (b + b') / 2 + integral ((a', b') :: combine e p)).
    rewrite IH. field. }
  rewrite G, I. ring.
Qed.
Print Assumptions C65_tables_integrate_to_1000.

(** So a mixture whose components are weighted by probability times integral keeps the right proportions only if all components
    are tables; with BALLABIO_GAUSSIAN, D-T and D-D are Normal (integral 1) and T-T is over-weighted 1000-fold. *)
Theorem C65_gaussian_mixture_refuted : forall m u d s srcs w, reachable m u s -> no_sinks s -> 0 < source_rate s ->
  to_openmc_source d s SGaussian = Ok (srcs, w) ->
  Forall2 (fun i src => exists probs ds, src_energy src = Mixture probs ds /\
     Forall2 (fun r pu => fst pu * density_integral (snd pu) = (if reaction_eq_dec r TT then 1000 else 1) * (channel_emission s r i / emission s i))
       (emitting_channels s i) (combine probs ds)) (emitting s) srcs.
Proof.
  intros m u d s srcs w Hr Hs Hq E. pose proof (C52_energy_mixture m u d s SGaussian srcs w Hr Hs Hq E) as [F N].
  eapply Forall2_impl; [|exact F]. cbn beta. intros i src (T & probs & ds & _ & En & -> & _ & _ & Fd). eexists _, ds. split; [exact En|].
  clear F En. assert (Ni := fun r => N r i). clear N. revert Ni. induction Fd as [|r u0 l l' Hd _ IH]; intro N; cbn [map combine]; [constructor|]. constructor; [|apply IH; intros; apply N; now right].
  cbn [fst snd]. destruct (N r (or_introl eq_refl)) as [_ Nn]. 
  destruct u0 as [a b|x p|a b|p q].
  - inversion Hd; subst. destruct (reaction_eq_dec r TT) as [->|_]; [discriminate|]. cbn. ring.
  - rewrite (C65_tables_integrate_to_1000 d SGaussian r T x p Hd). inversion Hd as [|? ? ? Hm _]; subst. destruct Hm as [Hm|Hm]; [congruence|].
    destruct r; try discriminate Hm; try (exfalso; rewrite neutrons_label in Nn; cbn in Nn; lia). destruct (reaction_eq_dec TT TT); [ring|congruence].
  - inversion Hd.
  - inversion Hd.
Qed.
Print Assumptions C65_gaussian_mixture_refuted.
Theorem C65_other_methods_proportional : forall m u d s meth srcs w, reachable m u s -> no_sinks s -> 0 < source_rate s -> meth <> SGaussian ->
  to_openmc_source d s meth = Ok (srcs, w) ->
  Forall2 (fun i src => exists probs ds, src_energy src = Mixture probs ds /\
     Forall2 (fun r pu => fst pu * density_integral (snd pu) = 1000 * (channel_emission s r i / emission s i))
       (emitting_channels s i) (combine probs ds)) (emitting s) srcs.
Proof.
  intros m u d s meth srcs w Hr Hs Hq Hm E. pose proof (C52_energy_mixture m u d s meth srcs w Hr Hs Hq E) as [F N].
  eapply Forall2_impl; [|exact F]. cbn beta. intros i src (T & probs & ds & _ & En & -> & _ & _ & Fd). eexists _, ds. split; [exact En|].
  clear F En. induction Fd as [|r u0 l l' Hd _ IH]; cbn [map combine]; [constructor|]. constructor; [|exact IH]. cbn [fst snd].
  destruct u0 as [a b|x p|a b|p q].
  - inversion Hd; congruence.
  - rewrite (C65_tables_integrate_to_1000 d meth r T x p Hd). ring.
  - inversion Hd.
  - inversion Hd.
Qed.
Print Assumptions C65_other_methods_proportional.

(** C66: the OpenMC source does not depend on the fusion power a source is normalised to. *)
Lemma ring_channels_scale d meth i T k g l : 0 < k -> (forall r, In r l -> (i < length (g r))%nat) ->
  ring_channels d meth i T (dmap (fun r => map (fun x => x * k) (g r)) l) =
  do (ws, ds, w) <- ring_channels d meth i T (dmap g l); Ok (map (fun x => x * k) ws, ds, w).
Proof.
  intro Hk. induction l as [|r l IH]; intro Hl; [reflexivity|]. cbn [dmap map ring_channels].
  change (map (fun r => (r, g r)) l) with (dmap g l). change (map (fun r0 => (r0, map (fun x => x * k) (g r0))) l) with (dmap (fun r => map (fun x => x * k) (g r)) l).
  assert (Hi : (i < length (g r))%nat) by (apply Hl; now left). destruct (nth_error (g r) i) as [x|] eqn:Ex; [|apply nth_error_None in Ex; lia].
  rewrite (map_nth_error (fun x => x * k) i (g r) Ex). cbn [bind]. rewrite IH by (intros; apply Hl; now right).
  assert (Rltb 0 (x * k) = Rltb 0 x) as ->. { destruct (Rltb_spec 0 x), (Rltb_spec 0 (x * k)); try reflexivity; nra. }
  destruct (Rltb 0 x); [|reflexivity]. destruct (get_neutron_energy_spectrum d r T meth) as [[u0 w0]| |]; cbn [bind]; [|reflexivity|reflexivity].
  destruct (ring_channels d meth i T (dmap g l)) as [[[ws ds] w]| |]; cbn [bind]; reflexivity.
Qed.
Lemma ring_scale d meth l_2 k g l q i c : 0 < k -> (forall r, In r l -> (i < length (g r))%nat) ->
  ring d meth l_2 (dmap (fun r => map (fun x => x * k) (g r)) l) (RFloat (q * k)) i c = ring d meth l_2 (dmap g l) (RFloat q) i c.
Proof.
  intros Hk Hl. unfold ring. destruct c as [[ri zi] ti]. rewrite ring_channels_scale by assumption.
  destruct (ring_channels d meth i ti (dmap g l)) as [[[ws ds] w]| |] eqn:Er; cbn [bind]; [|reflexivity|reflexivity].
  destruct (ring_channels_ok d meth i ti g l ws ds w Hl Er) as [Ews _].
  assert (Z0 : Reqb (q * k) 0 = Reqb q 0). { destruct (Reqb_spec q 0) as [->|]; [rewrite Rmult_0_l; apply Reqb_refl|]. apply Reqb_false. apply Rmult_integral_contrapositive_currified; lra. }
  destruct ws as [|x ws].
  - cbn [map mapM bind share]. rewrite Z0. destruct (Reqb_spec q 0); [reflexivity|]. cbn [bind]. unfold Rdiv. rewrite !Rmult_0_l. reflexivity.
  - assert (Pos : 0 < pysum (x :: ws)). { apply positive_sum; [|discriminate]. rewrite Ews. apply weights_pos. }
    assert (Ps : pysum (map (fun x => x * k) (x :: ws)) = pysum (x :: ws) * k) by apply pysum_scale.
    rewrite Ps. assert (Pk : 0 < pysum (x :: ws) * k) by (apply Rmult_lt_0_compat; assumption). set (S := pysum (x :: ws)) in *.
    assert (EM : forall l0, mapM (fun y => np_div y (S * k)) (map (fun x => x * k) l0) = mapM (fun y => np_div y S) l0).
    { induction l0 as [|y l0 IH]; [reflexivity|]. cbn [map mapM]. rewrite IH, !np_div_ok by lra. cbn [bind]. replace (y * k / (S * k)) with (y / S) by (field; lra). reflexivity. }
    rewrite EM. destruct (mapM (fun y => np_div y S) (x :: ws)); cbn [bind]; try reflexivity.
    assert (Es : share (map (fun x => x * k) (x :: ws)) (RFloat (q * k)) = share (x :: ws) (RFloat q)).
    { cbn [share map]. change (x * k :: map (fun x => x * k) ws) with (map (fun x => x * k) (x :: ws)). rewrite Ps. fold S. unfold np_div. rewrite Z0. destruct (Reqb_spec q 0); [reflexivity|]. cbn [bind].
      replace (S * k / (q * k)) with (S / q) by (field; lra). reflexivity. }
    rewrite Es. reflexivity.
Qed.
Theorem C66_independent_of_power : forall m u d s k meth, reachable m u s -> 0 < k -> to_openmc_source d (times k s) meth = to_openmc_source d s meth.
Proof.
  intros m u d s k meth Hr Hk. pose proof (reachable_lengths m u s Hr) as LT. destruct (reachable_consistent m u s Hr) as (f & C). pose proof C as (N & E1 & E2 & E3 & L).
  destruct (times_consistent s f k C) as (_ & F1 & _ & F3 & _).
  unfold to_openmc_source, make_openmc_full_combined_source. rewrite F1, E1, !n_strength_dmap. cbn [times source_type cells cell_side temperature].
  assert (Sr : source_rate (times k s) = source_rate s * k).
  { unfold source_rate. rewrite F3, E3, !map_snd_dmap. cbn [times source_type]. rewrite <- pysum_scale, map_map. f_equal. apply map_ext. intro r. rewrite pysum_scale. ring. }
  match goal with |- context [rings _ _ _ _ _ _ ?c] => set (cs := c) end.
  assert (Lc : length cs = length (cells s)). { unfold cs. rewrite !combine_length, !map_length, LT. unfold sample. lia. }
  assert (Ed : dmap (nfun (fun r => map (fun x => x * k) (f r))) (filter is_neutronic (source_type s)) =
               dmap (fun r => map (fun x => x * k) (nfun f r)) (filter is_neutronic (source_type s))).
  { apply dmap_ext_in. intros r _. unfold nfun. rewrite !map_map. apply map_ext. intro. ring. }
  rewrite Ed. rewrite E3, F3. cbn [times source_type].
  destruct (source_type s) as [|r0 types] eqn:Ht.
  - destruct cs as [|[[a b] T] cs']; reflexivity.
  - cbn [dmap map]. rewrite Sr. rewrite <- Ht in *.
    assert (G : forall l i, (i + length l <= length (cells s))%nat ->
      rings d meth (cell_side s / 2) (dmap (fun r => map (fun x => x * k) (nfun f r)) (filter is_neutronic (source_type s))) (RFloat (source_rate s * k)) i l =
      rings d meth (cell_side s / 2) (dmap (nfun f) (filter is_neutronic (source_type s))) (RFloat (source_rate s)) i l).
    { induction l as [|c l IH]; intros i Hi; [reflexivity|]. cbn [rings length] in *. rewrite IH by lia. rewrite ring_scale; [reflexivity|exact Hk|].
      intros r Hin. apply filter_In in Hin. unfold nfun. rewrite map_length, (L r) by apply Hin. lia. }
    change (dmap (fun r => map (fun x => x * k) (nfun f r)) (filter is_neutronic (source_type s))) with (dmap (fun r => map (fun x => x * k) (nfun f r)) (filter is_neutronic (source_type s))).
    rewrite G by lia. reflexivity.
Qed.
Print Assumptions C66_independent_of_power.

(** The warnings logged during the conversion are all different, and they are the ones an unfiltered run would log. *)
Theorem C64_openmc_warnings_once : forall d s meth srcs w, to_openmc_source d s meth = Ok (srcs, w) -> NoDup w.
Proof.
  intros d s meth srcs w. unfold to_openmc_source, make_openmc_full_combined_source.
  match goal with |- context [rings ?a ?b ?c ?e ?g ?h ?k] => destruct (rings a b c e g h k) as [[srcs' w']| |] end; cbn [bind]; try discriminate.
  intro E. injection E as <- <-.
  assert (Sm : forall a b, same_message a b = true <-> a = b).
  { intros [r|T] [r'|T']; cbn [same_message]; split; intro H; try discriminate.
    - unfold reaction_eqb in H. destruct (reaction_eq_dec r r'); congruence.
    - injection H as ->. unfold reaction_eqb. destruct (reaction_eq_dec r' r'); congruence.
    - apply Reqb_true in H. congruence.
    - injection H as ->. apply Reqb_refl. }
  assert (G : forall l seen, NoDup (filter_duplicates same_message seen l) /\ forall x, In x (filter_duplicates same_message seen l) -> ~ In x seen).
  { induction l as [|x l IH]; intro seen; cbn [filter_duplicates]; [split; [constructor|contradiction]|].
    destruct (existsb (same_message x) seen) eqn:Q; [apply IH|]. destruct (IH (x :: seen)) as [A B]. split.
    - constructor; [|exact A]. intro C. apply B in C. apply C. now left.
    - intros y [<-|Hy]; [|intro C; apply B in Hy; apply Hy; now right].
      intro C. assert (existsb (same_message x) seen = true); [|congruence]. apply existsb_exists. exists x. split; [exact C|now apply Sm]. }
  apply G.
Qed.
Print Assumptions C64_openmc_warnings_once.

(** The concrete D-T + D-D source of P_Source meets the hypotheses, and so does its rescaling. *)
Example C51_C66_example : exists s ws, make_source nominal_masses nominal_units mpl_inside ex_heap ex_transport ex_map (SList [IStr "D-T"%string; IStr "D-D"%string]) (1/2) None MAuto = Ok (s, ws) /\
  reachable nominal_masses nominal_units s /\ no_sinks s /\ 0 < source_rate s /\
  exists srcs w, to_openmc_source tt_shipped s SAuto = Ok (srcs, w) /\ srcs <> [].
Proof.
  destruct C06_C12_example as (s & ws & E & St & Rc & _ & Pos & Nc & T10 & Ge). exists s, ws. split; [exact E|]. split; [exact Rc|].
  destruct (reachable_consistent _ _ _ Rc) as (f & C). pose proof C as (N & E1 & E2 & E3 & L).
  assert (Ns : no_sinks s).
  { intros r st x Hst Hx. left. apply (Pos r st x); [|exact Hst|exact Hx]. rewrite E1, dget_dmap in Hst. destruct (memb r (source_type s)) eqn:Q; [now apply memb_In|discriminate]. }
  assert (Hq : 0 < source_rate s).
  { unfold source_rate. rewrite E3, map_snd_dmap, St. cbn [map num_neutrons]. rewrite !pysum_cons, pysum_nil.
    assert (P : forall r, In r (source_type s) -> 0 < pysum (f r)).
    { intros r Hr. assert (G : dget (strength s) r = Some (f r)) by (rewrite E1; now apply dget_dmap_in).
      apply positive_sum; [intros x Hx; apply (Pos r (f r) x Hr G Hx)|]. intro Z. specialize (L r Hr). rewrite Z in L. destruct (cells s); [congruence|discriminate]. }
    rewrite St in P. pose proof (P DT ltac:(cbn; auto)). pose proof (P DDn ltac:(cbn; auto)). cbn [INR]. lra. }
  split; [exact Ns|]. split; [exact Hq|].
  destruct (C54_conversion_succeeds nominal_masses nominal_units s SAuto Rc Ns Hq ltac:(discriminate)) as (srcs & w & Eo).
  - intros T HT. apply T10 in HT. lra.
  - intros c Hc. apply Ge in Hc. lra.
  - exists srcs, w. split; [exact Eo|]. intros ->. destruct (C51_strengths_sum_to_one _ _ _ _ _ _ _ Rc Ns Hq Eo) as [_ S1]. cbn in S1. lra.
Qed.
