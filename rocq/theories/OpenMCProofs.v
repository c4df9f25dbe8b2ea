(** Lemmas for P_OpenMC.v. *)
From Verif Require Import Base Reactions SpecReactions Space SpecSpace Source SpecSource SourceProofs SpectraData Energy SpecEnergy LogFilter OpenMC SpecOpenMC.

Lemma spectrum_expected d r T meth u w : get_neutron_energy_spectrum d r T meth = Ok (u, w) -> expected_distribution d meth r T u.
Proof.
  assert (Tab : forall x, (meth <> SGaussian \/ ballabio_spectrum r = None) -> x = energy_spectrum d T r meth ->
    (do (s, w) <- x; match s with None => Err EType | Some (energy, probability) => Ok (Tabular (map keV_to_eV energy) probability, w) end) = Ok (u, w) ->
    expected_distribution d meth r T u).
  { intros x Hm Ex. destruct x as [[[[e p]|] w']| |]; cbn [bind]; try discriminate. intro E. injection E as <- <-.
    replace (map keV_to_eV e) with (map (fun x => 1000 * x) e) by (apply map_ext; intro; unfold keV_to_eV; ring).
    eapply expected_table; eauto. }
  unfold get_neutron_energy_spectrum. destruct meth; try (apply Tab; [left; discriminate|reflexivity]).
  destruct (ballabio_spectrum r) as [b|] eqn:Hb; [|apply Tab; [now right|reflexivity]].
  destruct (mean_energy b T) as [mu| |] eqn:E1; cbn [bind]; try discriminate. destruct (std_deviation b T) as [sg| |] eqn:E2; cbn [bind]; try discriminate.
  intro E. injection E as <- <-. unfold keV_to_eV. rewrite (Rmult_comm mu), (Rmult_comm sg). eapply expected_normal; eauto.
Qed.

(** ** One ring *)
Section Ring.
Variables (d : tt_data) (meth : spectrum_method).

(** Channel strengths as a function. *)
Definition nfun (f : reaction -> list R) (r : reaction) : list R := map (fun x => x * INR (num_neutrons r)) (f r).
Lemma n_strength_dmap f types : n_strength (dmap f types) = dmap (nfun f) (filter is_neutronic types).
Proof.
  unfold n_strength, dmap. rewrite <- (map_map (fun r => (r, f r)) (fun p => (fst p, map (fun x => x * INR (num_neutrons (fst p))) (snd p)))).
  f_equal. induction types as [|r l IH]; [reflexivity|]. cbn [map filter fst]. rewrite IH. now destruct (is_neutronic r).
Qed.

Lemma ring_channels_ok i T g l ws ds w : (forall r, In r l -> (i < length (g r))%nat) ->
  ring_channels d meth i T (dmap g l) = Ok (ws, ds, w) ->
  ws = map (fun r => nth i (g r) 0) (filter (fun r => Rltb 0 (nth i (g r) 0)) l) /\
  Forall2 (fun r u => expected_distribution d meth r T u) (filter (fun r => Rltb 0 (nth i (g r) 0)) l) ds.
Proof.
  revert ws ds w; induction l as [|r l IH]; intros ws ds w Hl; cbn [dmap map ring_channels].
  - intro E. injection E as <- <- <-. split; [reflexivity|constructor].
  - rewrite (nth_error_nth' (g r) 0) by (apply Hl; now left). cbn [bind filter]. change (map (fun r => (r, g r)) l) with (dmap g l).
    assert (Hl' : forall r, In r l -> (i < length (g r))%nat) by (intros; apply Hl; now right).
    destruct (Rltb 0 (nth i (g r) 0)); [|apply IH, Hl'].
    destruct (get_neutron_energy_spectrum d r T meth) as [[u w']| |] eqn:Eu; cbn [bind]; try discriminate.
    destruct (ring_channels d meth i T (dmap g l)) as [[[ws' ds'] w'']| |] eqn:Er; cbn [bind]; try discriminate.
    intro E. injection E as <- <- <-. destruct (IH _ _ _ Hl' eq_refl) as [-> F]. cbn [map]. split; [reflexivity|]. constructor; [now apply (spectrum_expected _ _ _ _ _ w')|exact F].
Qed.

Lemma positive_sum l : (forall x, In x l -> 0 < x) -> l <> [] -> 0 < pysum l.
Proof.
  intros H N. destruct l as [|x l]; [congruence|]. rewrite pysum_cons. assert (0 < x) by (apply H; now left).
  assert (0 <= pysum l) by (apply pysum_nonneg, Forall_forall; intros y Hy; left; apply H; now right). lra.
Qed.

(** What a ring source must look like. *)
Definition ring_shape (l_2 : R) (p : R * R) (src : independent_source) : Prop :=
  let r_in := 100 * (fst p - l_2) in let r_out := 100 * (fst p + l_2) in
  src_r src = Tabular [r_in; r_out] [r_in / (r_in + r_out); r_out / (r_in + r_out)] /\
  src_phi src = Uniform 0 (2 * PI) /\
  src_z src = Uniform (100 * (snd p - l_2)) (100 * (snd p + l_2)) /\
  src_origin src = (0, 0, 0).

Lemma ring_source_ok r z l_2 u x o : make_openmc_ring_source r z l_2 u x = Ok o ->
  (0 < x -> r <> 0 /\ exists src, o = Some src /\ ring_shape l_2 (r, z) src /\ src_energy src = u /\ src_strength src = x) /\ (x <= 0 -> o = None).
Proof.
  unfold make_openmc_ring_source. destruct (Rltb_spec 0 x) as [Hx|Hx].
  - cbn [map mapM]. unfold m_to_cm. rewrite !pysum_cons, pysum_nil. unfold np_div.
    destruct (Reqb_spec ((r - l_2) * 100 + ((r + l_2) * 100 + 0)) 0) as [Z|Z]; cbn [bind]; [discriminate|].
    intro E. injection E as <-. split; [|lra]. intros _. split; [intros ->; apply Z; lra|]. eexists. split; [reflexivity|].
    split; [|split; reflexivity]. unfold ring_shape; cbn [src_r src_phi src_z src_origin fst snd].
    replace ((r - l_2) * 100 + ((r + l_2) * 100 + 0)) with (100 * (r - l_2) + 100 * (r + l_2)) by ring.
    rewrite !(Rmult_comm _ 100). auto.
  - intro E. injection E as <-. split; [lra|reflexivity].
Qed.

(** The weights of ring i. *)
Definition weights_at (g : reaction -> list R) (i : nat) (l : list reaction) : list R := map (fun r => nth i (g r) 0) (filter (fun r => Rltb 0 (nth i (g r) 0)) l).
Lemma weights_pos g i l x : In x (weights_at g i l) -> 0 < x.
Proof. unfold weights_at. rewrite in_map_iff. intros (r & <- & H). apply filter_In in H. apply Rltb_true, H. Qed.

Definition ring_result (l_2 : R) (g : reaction -> list R) (l : list reaction) (q : R) (i : nat) (c : R * R * R) (src : independent_source) : Prop :=
  ring_shape l_2 (fst c) src /\ fst (fst c) <> 0 /\
  src_strength src = pysum (weights_at g i l) / q /\
  exists ds, src_energy src = Mixture (map (fun x => x / pysum (weights_at g i l)) (weights_at g i l)) ds /\
    Forall2 (fun r u => expected_distribution d meth r (snd c) u) (filter (fun r => Rltb 0 (nth i (g r) 0)) l) ds.

Lemma ring_ok l_2 g l q i c o w : 0 < q -> (forall r, In r l -> (i < length (g r))%nat) ->
  ring d meth l_2 (dmap g l) (RFloat q) i c = Ok (o, w) ->
  (weights_at g i l = [] -> o = None) /\ (weights_at g i l <> [] -> exists src, o = Some src /\ ring_result l_2 g l q i c src).
Proof.
  intros Hq Hl. unfold ring. destruct c as [[ri zi] ti].
  destruct (ring_channels d meth i ti (dmap g l)) as [[[ws ds] w']| |] eqn:Er; cbn [bind]; try discriminate.
  destruct (ring_channels_ok i ti g l ws ds w' Hl Er) as [Ews F]. fold (weights_at g i l) in Ews.
  destruct ws as [|x ws].
  - rewrite <- Ews. cbn [mapM bind share]. destruct (Reqb_spec q 0); [lra|]. cbn [bind].
    destruct (make_openmc_ring_source ri zi l_2 _ (0 / q)) as [o'| |] eqn:E; cbn [bind]; try discriminate. intro Eo. injection Eo as <- <-.
    split; [|congruence]. intros _. apply (ring_source_ok _ _ _ _ _ _ E). unfold Rdiv. lra.
  - assert (Pos : 0 < pysum (x :: ws)). { apply positive_sum; [|discriminate]. rewrite Ews. apply weights_pos. }
    rewrite Ews in *. set (W := weights_at g i l) in *.
    assert (EW : mapM (fun x => np_div x (pysum W)) W = Ok (map (fun x => x / pysum W) W)).
    { clear Ews. assert (G : forall l, mapM (fun x => np_div x (pysum W)) l = Ok (map (fun x => x / pysum W) l)); [|apply G].
      intro l0. induction l0 as [|y l0 IH]; [reflexivity|]. cbn [mapM map]. rewrite np_div_ok by lra. cbn [bind]. rewrite IH. reflexivity. }
    rewrite EW. cbn [bind]. assert (Es : share W (RFloat q) = Ok (Some (pysum W / q))).
    { rewrite <- Ews. cbn [share]. rewrite np_div_ok by lra. reflexivity. }
    rewrite Es. cbn [bind]. destruct (make_openmc_ring_source ri zi l_2 _ (pysum W / q)) as [o'| |] eqn:E; cbn [bind]; try discriminate. intro Eo. injection Eo as <- <-.
    split; [intro C; rewrite <- Ews in C; discriminate|]. intros _.
    destruct (ring_source_ok _ _ _ _ _ _ E) as [A _]. destruct A as (R0 & src & -> & Sh & En & St); [now apply Rdiv_lt_0_compat|].
    exists src. split; [reflexivity|]. split; [exact Sh|]. split; [exact R0|]. split; [exact St|]. exists ds. auto.
Qed.

Lemma rings_ok l_2 g l q cs : 0 < q -> forall i srcs w, (forall r, In r l -> (i + length cs <= length (g r))%nat) ->
  rings d meth l_2 (dmap g l) (RFloat q) i cs = Ok (srcs, w) ->
  Forall2 (fun j src => exists c, nth_error cs (j - i) = Some c /\ ring_result l_2 g l q j c src)
    (filter (fun j => match weights_at g j l with [] => false | _ => true end) (seq i (length cs))) srcs.
Proof.
  intro Hq. induction cs as [|c cs IH]; intros i srcs w Hl; cbn [rings].
  - intro E. injection E as <- <-. constructor.
  - destruct (ring d meth l_2 (dmap g l) (RFloat q) i c) as [[o w1]| |] eqn:Eo; cbn [bind]; try discriminate.
    destruct (rings d meth l_2 (dmap g l) (RFloat q) (S i) cs) as [[srcs' w2]| |] eqn:Er; cbn [bind]; try discriminate.
    intro E. injection E as <- <-. cbn [length] in Hl.
    specialize (IH (S i) srcs' w2). assert (I : Forall2 (fun j src => exists c0, nth_error (c :: cs) (j - i) = Some c0 /\ ring_result l_2 g l q j c0 src)
      (filter (fun j => match weights_at g j l with [] => false | _ => true end) (seq (S i) (length cs))) srcs').
    { assert (I := IH ltac:(intros r Hr; specialize (Hl r Hr); lia) Er).
      assert (G : forall js ss, (forall j, In j js -> (S i <= j)%nat) -> Forall2 (fun j src => exists c0, nth_error cs (j - S i) = Some c0 /\ ring_result l_2 g l q j c0 src) js ss ->
        Forall2 (fun j src => exists c0, nth_error (c :: cs) (j - i) = Some c0 /\ ring_result l_2 g l q j c0 src) js ss).
      { intros js ss Hj. induction 1 as [|j s js ss (c0 & A & B) _ IHf]; constructor; [|apply IHf; intros; apply Hj; now right].
        exists c0. split; [|exact B]. specialize (Hj j (or_introl eq_refl)). replace (j - i)%nat with (S (j - S i)) by lia. exact A. }
      apply G; [|exact I]. intros j Hj. apply filter_In in Hj. destruct Hj as [Hj _]. apply in_seq in Hj. lia. }
    destruct (ring_ok l_2 g l q i c o w1 Hq ltac:(intros r Hr; specialize (Hl r Hr); lia) Eo) as [N S].
    cbn [length seq filter]. destruct (weights_at g i l) as [|x ws] eqn:Ew.
    + rewrite (N eq_refl). exact I.
    + destruct (S ltac:(discriminate)) as (src & -> & Rr). constructor; [|exact I]. exists c. rewrite Nat.sub_diag. auto.
Qed.
End Ring.

(** ** Reachable sources *)
Lemma reachable_bare m u s : reachable m u s -> exists inside h tr fm arg side meth s0 ws k,
  make_source m u inside h tr fm arg side None meth = Ok (s0, ws) /\ s = times k s0.
Proof.
  intros (inside & h & tr & fm & arg & side & P & meth & s0 & ws & Ps & E & En).
  assert (E0 : exists s1 k, make_source m u inside h tr fm arg side None meth = Ok (s1, ws) /\ s0 = times k s1).
  { destruct P as [P|].
    - apply make_source_split in E. destruct E as (s1 & E1 & En1). exists s1. pose proof E1 as E2.
      apply make_bare_ok in E1. destruct E1 as (_ & _ & _ & _ & _ & psi & dd & dt & dh & f & _ & _ & _ & _ & _ & C & _).
      destruct (normalise_consistent m s1 f P s0 C En1) as (-> & _ & _). eauto.
    - exists s0, 1. rewrite times_1. auto. }
  destruct E0 as (s1 & k & E1 & ->). pose proof E1 as E2.
  apply make_bare_ok in E1. destruct E1 as (_ & _ & _ & _ & _ & psi & dd & dt & dh & f & _ & _ & _ & _ & _ & C & _).
  destruct (normalise_all_consistent m Ps _ _ s (times_consistent s1 f k C) En) as [k' ->].
  exists inside, h, tr, fm, arg, side, meth, s1, ws, (k * k'). split; [exact E2|]. now rewrite times_times.
Qed.
Lemma reachable_lengths m u s : reachable m u s -> length (temperature s) = length (cells s).
Proof.
  intro H. destruct (reachable_bare m u s H) as (inside & h & tr & fm & arg & side & meth & s0 & ws & k & E & ->).
  apply make_bare_ok in E. destruct E as (_ & _ & _ & _ & _ & psi & dd & dt & dh & f & E1 & E2 & _). cbn [times temperature cells].
  apply mapM_Ok_length in E1, E2. rewrite E2. exact E1.
Qed.
Lemma reachable_sampled m u s : reachable m u s -> exists inside, sample_space_2d inside (fm_lcfs (src_map s)) (fm_o (src_map s)) (cell_side s) = Ok (cells s).
Proof.
  intro H. destruct (reachable_bare m u s H) as (inside & h & tr & fm & arg & side & meth & s0 & ws & k & E & ->).
  apply make_bare_ok in E. destruct E as (_ & E & Es & Em & _). exists inside. cbn [times cells cell_side src_map]. rewrite Es, Em. exact E.
Qed.

(** ** Emission *)
Lemma channel_emission_f s f r i : consistent s f -> In r (source_type s) -> channel_emission s r i = nth i (nfun f r) 0.
Proof.
  intros (N & E1 & _ & _ & L) Hr. unfold channel_emission, nfun. rewrite E1, dget_dmap_in by exact Hr. rewrite neutrons_label.
  generalize (f r) as l. intro l. revert i; induction l as [|x l IH]; intros [|i]; cbn [nth map]; try ring. apply IH.
Qed.
Lemma aneutronic_silent s r i : is_neutronic r = false -> channel_emission s r i = 0.
Proof. intro H. unfold channel_emission. rewrite neutrons_label. destruct (dget _ _); [|reflexivity]. destruct r; try discriminate; cbn [num_neutrons INR]; ring. Qed.
Lemma channel_nonneg s r i : no_sinks s -> 0 <= channel_emission s r i.
Proof.
  intro H. unfold channel_emission. destruct (dget (strength s) r) as [st|] eqn:E; [|lra]. apply Rmult_le_pos; [apply pos_INR|].
  destruct (Nat.lt_ge_cases i (length st)) as [Hi|Hi]; [apply (H r st); [exact E|now apply nth_In]|rewrite nth_overflow by exact Hi; lra].
Qed.
Lemma filter_ext_in' {A} (f g : A -> bool) l : (forall a, In a l -> f a = g a) -> filter f l = filter g l.
Proof. induction l as [|a l IH]; intro H; [reflexivity|]. cbn. rewrite (H a) by now left. rewrite IH by (intros; apply H; now right). reflexivity. Qed.
Lemma channels_filter s f i : consistent s f ->
  filter (fun r => Rltb 0 (nth i (nfun f r) 0)) (filter is_neutronic (source_type s)) = emitting_channels s i.
Proof.
  intro C. unfold emitting_channels. assert (G : forall l, (forall r, In r l -> In r (source_type s)) ->
    filter (fun r => Rltb 0 (nth i (nfun f r) 0)) (filter is_neutronic l) = filter (fun r => Rltb 0 (channel_emission s r i)) l); [|apply G; auto].
  induction l as [|r l IH]; intro H; [reflexivity|]. cbn [filter].
  destruct (is_neutronic r) eqn:Q.
  - cbn [filter]. rewrite (channel_emission_f s f r i C) by (apply H; now left). rewrite IH by (intros; apply H; now right). reflexivity.
  - rewrite (aneutronic_silent s r i Q). rewrite IH by (intros; apply H; now right). destruct (Rltb_spec 0 0); [lra|reflexivity].
Qed.
Lemma weights_channels s f i : consistent s f -> weights_at (nfun f) i (filter is_neutronic (source_type s)) = map (fun r => channel_emission s r i) (emitting_channels s i).
Proof.
  intro C. unfold weights_at. rewrite (channels_filter s f i C). apply map_ext_in. intros r Hr. apply filter_In in Hr. symmetry. apply channel_emission_f; [exact C|apply Hr].
Qed.
Lemma total_positive_part {A} (g : A -> R) l : (forall a, In a l -> 0 <= g a) -> total (map g (filter (fun a => Rltb 0 (g a)) l)) = total (map g l).
Proof.
  induction l as [|a l IH]; intro H; [reflexivity|]. cbn [filter map total]. rewrite <- IH by (intros; apply H; now right).
  destruct (Rltb_spec 0 (g a)); [reflexivity|]. specialize (H a (or_introl eq_refl)). lra.
Qed.
Lemma total_nonneg' {A} (g : A -> R) l : (forall a, In a l -> 0 <= g a) -> 0 <= total (map g l).
Proof. induction l as [|a l IH]; intro H; cbn [map total]; [lra|]. specialize (IH ltac:(intros; apply H; now right)). specialize (H a (or_introl eq_refl)). lra. Qed.
Lemma weights_sum s f i : consistent s f -> no_sinks s -> pysum (weights_at (nfun f) i (filter is_neutronic (source_type s))) = emission s i.
Proof. intros C H. rewrite (weights_channels s f i C), pysum_total. apply total_positive_part. intros r _. now apply channel_nonneg. Qed.
Lemma emitting_weights s f i : consistent s f -> no_sinks s ->
  Rltb 0 (emission s i) = match weights_at (nfun f) i (filter is_neutronic (source_type s)) with [] => false | _ => true end.
Proof.
  intros C H. rewrite <- (weights_sum s f i C H).
  destruct (weights_at (nfun f) i (filter is_neutronic (source_type s))) as [|x l] eqn:E; [rewrite pysum_nil; destruct (Rltb_spec 0 0); [lra|reflexivity]|].
  apply Rltb_true. apply positive_sum; [|discriminate]. rewrite <- E. apply weights_pos.
Qed.

(** Swapping the order of summation. *)
Lemma total_map_plus {A} (g k : A -> R) l : total (map (fun a => g a + k a) l) = total (map g l) + total (map k l).
Proof. induction l as [|a l IH]; cbn [map total]; [ring|]. rewrite IH; ring. Qed.
Lemma total_map_zero {A} (l : list A) : total (map (fun _ => 0) l) = 0.
Proof. induction l as [|a l IH]; cbn [map total]; [ring|]. rewrite IH; ring. Qed.
Lemma total_swap {A B} (g : A -> B -> R) la lb : total (map (fun a => total (map (g a) lb)) la) = total (map (fun b => total (map (fun a => g a b) la)) lb).
Proof.
  induction la as [|a la IH]; cbn [map total]; [now rewrite total_map_zero|]. rewrite IH, <- total_map_plus. reflexivity.
Qed.
Lemma total_scale {A} (g : A -> R) k l : total (map (fun a => k * g a) l) = k * total (map g l).
Proof. induction l as [|a l IH]; cbn [map total]; [ring|]. rewrite IH; ring. Qed.
Lemma total_nth l : total (map (fun i => nth i l 0) (seq 0 (length l))) = total l.
Proof.
  induction l as [|x l IH]; [reflexivity|]. cbn [length seq map total nth]. rewrite <- seq_shift, map_map. cbn [nth]. now rewrite IH.
Qed.
Lemma emission_total s f : consistent s f -> total (map (emission s) (seq 0 (length (cells s)))) = source_rate s.
Proof.
  intro C. unfold emission. rewrite total_swap. pose proof C as (N & E1 & E2 & E3 & L). unfold source_rate. rewrite E3, map_snd_dmap, pysum_total. f_equal. apply map_ext_in. intros r Hr.
  rewrite (map_ext _ (fun i => INR (num_neutrons r) * nth i (f r) 0)).
  - rewrite total_scale, <- (L r Hr), total_nth, pysum_total. ring.
  - intro i. unfold channel_emission. rewrite E1, dget_dmap_in by exact Hr. now rewrite neutrons_label.
Qed.
Lemma Forall2_impl {A B} (P Q : A -> B -> Prop) l l' : (forall a b, P a b -> Q a b) -> Forall2 P l l' -> Forall2 Q l l'.
Proof. intro H. induction 1; constructor; auto. Qed.
