(** Lemmas about TokamakNeutronSource. *)
From Verif Require Import Base Reactions SpecReactions ReactionsProofs Profile Transport Space SpecSpace SpaceProofs
  Reactivity SpecReactivity ReactivityProofs Source SpecSource.

Lemma pysum_total l : pysum l = total l.
Proof. induction l as [|x l IH]; cbn [total]; rewrite ?pysum_cons, ?pysum_nil, ?IH; reflexivity. Qed.

(** ** Dictionaries in canonical form *)
Definition dmap {A} (f : reaction -> A) (l : list reaction) : dict A := map (fun r => (r, f r)) l.
Definition upd {A} (f : reaction -> A) (r : reaction) (a : A) : reaction -> A := fun r' => if reaction_eqb r' r then a else f r'.

Lemma dget_dmap {A} (f : reaction -> A) l r : dget (dmap f l) r = if memb r l then Some (f r) else None.
Proof.
  induction l as [|k l IH]; [reflexivity|]. cbn [dmap map dget memb existsb]. fold (memb r l).
  destruct (reaction_eqb_spec r k) as [->|N]; [reflexivity|exact IH].
Qed.
Lemma dget_dmap_in {A} (f : reaction -> A) l r : In r l -> dget (dmap f l) r = Some (f r).
Proof. intro H. rewrite dget_dmap. now rewrite (proj2 (memb_In r l) H). Qed.
Lemma dlookup_dmap {A} (f : reaction -> A) l r : In r l -> dlookup (dmap f l) r = Ok (f r).
Proof. intro H. unfold dlookup. now rewrite dget_dmap_in. Qed.
Lemma dset_dmap_in {A} (f : reaction -> A) l r a : NoDup l -> In r l -> dset (dmap f l) r a = dmap (upd f r a) l.
Proof.
  induction 1 as [|k l Hk Hl IH]; intro Hi; [contradiction|]. cbn [dmap map dset]. unfold upd at 1.
  destruct (reaction_eqb_spec r k) as [->|N].
  - destruct (reaction_eqb_spec k k); [|congruence]. f_equal. apply map_ext_in. intros r' Hr'. unfold upd.
    destruct (reaction_eqb_spec r' k); [subst; contradiction|reflexivity].
  - destruct (reaction_eqb_spec k r); [congruence|]. f_equal. destruct Hi as [->|Hi]; [congruence|]. now apply IH.
Qed.
Lemma dset_dmap_new {A} (f : reaction -> A) l r a : ~ In r l -> dset (dmap f l) r a = dmap (upd f r a) (l ++ [r]).
Proof.
  induction l as [|k l IH]; intro H; cbn [dmap map dset app].
  - unfold upd. now destruct (reaction_eqb_spec r r).
  - unfold upd at 1. destruct (reaction_eqb_spec r k) as [->|N]; [exfalso; apply H; now left|].
    destruct (reaction_eqb_spec k r); [congruence|]. f_equal. apply IH. intro Hi; apply H; now right.
Qed.
Lemma dmap_ext_in {A} (f g : reaction -> A) l : (forall r, In r l -> f r = g r) -> dmap f l = dmap g l.
Proof. intro H. apply map_ext_in. intros r Hr. now rewrite H. Qed.
Lemma map_fst_dmap {A} (f : reaction -> A) l : map fst (dmap f l) = l.
Proof. unfold dmap. rewrite map_map. apply map_id. Qed.
Lemma map_snd_dmap {A} (f : reaction -> A) l : map snd (dmap f l) = map f l.
Proof. unfold dmap. now rewrite map_map. Qed.

(** ** Consistent sources: all dictionaries derive from one strength function. *)
Definition consistent (s : source) (f : reaction -> list R) : Prop :=
  NoDup (source_type s) /\
  strength s = dmap f (source_type s) /\
  num_reactions s = dmap (fun r => pysum (f r)) (source_type s) /\
  num_neutrons_ps s = dmap (fun r => pysum (f r) * INR (num_neutrons r)) (source_type s) /\
  (forall r, In r (source_type s) -> length (f r) = length (cells s)).

Section M.
Variables (m : masses) (u : units).

Lemma consistent_power s f : consistent s f ->
  calculate_total_fusion_power m s = Ok (pysum (map (fun r => pysum (f r) * total_energy m r) (source_type s))).
Proof.
  intros (_ & E & _). unfold calculate_total_fusion_power. rewrite E.
  rewrite (mapM_pure _ (fun r => pysum (f r) * total_energy m r)); [reflexivity|].
  intros r Hr. rewrite dlookup_dmap by exact Hr. cbn [bind]. now rewrite pysum_scale.
Qed.
Lemma power_eq s f : consistent s f -> power m s = pysum (map (fun r => pysum (f r) * total_energy m r) (source_type s)).
Proof.
  intros (_ & E & _). unfold power. rewrite E. unfold dmap. rewrite map_map. cbn [fst snd]. rewrite pysum_total.
  f_equal. apply map_ext. intro r. now rewrite pysum_total.
Qed.
Lemma power_ok s f : consistent s f -> calculate_total_fusion_power m s = Ok (power m s).
Proof. intro H. now rewrite (power_eq s f H), (consistent_power s f H). Qed.

Lemma rescale_ok k types l : NoDup types -> NoDup l -> (forall r, In r l -> In r types) -> forall g fr fn,
  rescale k (dmap g types) (dmap fr types) (dmap fn types) l = Ok
    (dmap (fun r => if memb r l then map (fun x => x * k) (g r) else g r) types,
     dmap (fun r => if memb r l then fr r * k else fr r) types,
     dmap (fun r => if memb r l then fn r * k else fn r) types).
Proof.
  intros Ht Hl. induction Hl as [|r l Hr Hl IH]; intros Hsub g fr fn; cbn [rescale].
  - reflexivity.
  - assert (Hi : In r types) by (apply Hsub; now left).
    rewrite !dlookup_dmap by exact Hi. cbn [bind]. rewrite !dset_dmap_in by assumption.
    rewrite IH by (intros r' Hr'; apply Hsub; now right).
    f_equal. f_equal; [f_equal|]; apply dmap_ext_in; intros r' Hr'; unfold upd; cbn [memb existsb]; fold (memb r' l);
    destruct (reaction_eqb_spec r' r) as [->|N]; cbn [orb]; try reflexivity;
    destruct (memb r l) eqn:Q; try reflexivity; apply memb_In in Q; contradiction.
Qed.

Lemma times_consistent s f k : consistent s f -> consistent (times k s) (fun r => map (fun x => x * k) (f r)).
Proof.
  intros (N & E1 & E2 & E3 & L). unfold consistent, times; cbn [source_type strength num_reactions num_neutrons_ps cells].
  rewrite E1, E2, E3. unfold dmap. rewrite !map_map. cbn [fst snd]. split; [exact N|]. split; [reflexivity|].
  split; [|split].
  - apply map_ext. intro r. now rewrite pysum_scale.
  - apply map_ext. intro r. rewrite pysum_scale. f_equal. ring.
  - intros r Hr. rewrite map_length. now apply L.
Qed.

Lemma normalise_cases s f P : consistent s f ->
  (source_type s = [] -> normalise_fusion_power m s P = Err EZeroDivision) /\
  (source_type s <> [] -> power m s = 0 -> normalise_fusion_power m s P = NonFinite) /\
  (source_type s <> [] -> power m s <> 0 -> normalise_fusion_power m s P = Ok (times (P / power m s) s)).
Proof.
  intros C. pose proof C as (N & E1 & E2 & E3 & L). unfold normalise_fusion_power. rewrite (power_ok s f C). cbn [bind].
  split; [|split].
  - intros ->. reflexivity.
  - intros Ht Z. rewrite Z. destruct (source_type s); [congruence|]. unfold np_div. rewrite Reqb_refl. reflexivity.
  - intros Ht Z. assert (K : (match source_type s with [] => Err EZeroDivision | _ => np_div P (power m s) end) = Ok (P / power m s)).
    { destruct (source_type s); [congruence|]. now apply np_div_ok. }
    rewrite K. cbn [bind]. set (k := P / power m s). rewrite E1, E2, E3. rewrite rescale_ok by auto. cbn [bind].
    unfold times. rewrite E1, E2, E3. unfold dmap. rewrite !map_map. cbn [fst snd]. f_equal.
    f_equal; apply map_ext_in; intros r Hr; now rewrite (proj2 (memb_In r _) Hr).
Qed.

Lemma power_times s f k : consistent s f -> power m (times k s) = power m s * k.
Proof.
  intro C. rewrite (power_eq _ _ (times_consistent s f k C)), (power_eq s f C). cbn [times source_type].
  rewrite <- pysum_scale, map_map. f_equal. apply map_ext. intro r. rewrite pysum_scale. ring.
Qed.
Lemma times_times a b s : times b (times a s) = times (a * b) s.
Proof.
  unfold times; cbn [strength num_reactions num_neutrons_ps source_type cells cell_side temperature src_map src_transport].
  rewrite !map_map. f_equal; apply map_ext; intros [r v]; cbn [fst snd]; f_equal; try ring.
  rewrite map_map. apply map_ext. intro x; ring.
Qed.
Lemma times_1 s : times 1 s = s.
Proof.
  unfold times. destruct s as [a b c d e f g h i]; cbn.
  f_equal; (rewrite <- map_id; apply map_ext; intros [r v]; cbn [fst snd]; f_equal; try ring).
  rewrite <- map_id; apply map_ext; intro x; ring.
Qed.

(** ** The constructor *)
Lemma add_reactions_ok temps ds vols meth l : forall dn st nr nn ws (f : reaction -> list R) out,
  st = dmap f dn -> nr = dmap (fun r => pysum (f r)) dn -> nn = dmap (fun r => pysum (f r) * INR (num_neutrons r)) dn ->
  NoDup (dn ++ l) ->
  add_reactions m u temps ds vols meth (st, nr, nn, ws) l = Ok out ->
  exists f' ws', out = (dmap f' (dn ++ l), dmap (fun r => pysum (f' r)) (dn ++ l),
                        dmap (fun r => pysum (f' r) * INR (num_neutrons r)) (dn ++ l), ws') /\
    (forall r, In r dn -> f' r = f r) /\
    (forall r, In r l -> exists v w, density_weighted_reactivity m u temps ds (IReact r) meth = Ok (v, w) /\ f' r = map2 Rmult v vols).
Proof.
  induction l as [|r l IH]; intros dn st nr nn ws f out -> -> -> Hn; cbn [add_reactions].
  - intro E; injection E as <-. rewrite app_nil_r. exists f, ws. split; [reflexivity|]. split; [auto|intros r []].
  - unfold add_reaction. destruct (density_weighted_reactivity m u temps ds (IReact r) meth) as [[v w]| |] eqn:D; cbn [bind]; try discriminate.
    assert (Hr : ~ In r dn). { intro Hi. apply NoDup_remove_2 in Hn. apply Hn, in_or_app. now left. }
    rewrite !dset_dmap_new by exact Hr. intro E.
    assert (Hn' : NoDup ((dn ++ [r]) ++ l)) by (rewrite <- app_assoc; exact Hn).
    set (f1 := upd f r (map2 Rmult v vols)).
    assert (A : forall r', f1 r' = if reaction_eqb r' r then map2 Rmult v vols else f r') by reflexivity.
    assert (N1 : dmap (upd (fun r => pysum (f r)) r (pysum (map2 Rmult v vols))) (dn ++ [r]) = dmap (fun r => pysum (f1 r)) (dn ++ [r])).
    { apply dmap_ext_in. intros r' _. unfold upd. rewrite A. now destruct (reaction_eqb r' r). }
    assert (N2 : dmap (upd (fun r => pysum (f r) * INR (num_neutrons r)) r (pysum (map2 Rmult v vols) * INR (num_neutrons r))) (dn ++ [r])
      = dmap (fun r => pysum (f1 r) * INR (num_neutrons r)) (dn ++ [r])).
    { apply dmap_ext_in. intros r' _. unfold upd. rewrite A. destruct (reaction_eqb_spec r' r); [now subst|reflexivity]. }
    destruct (IH (dn ++ [r]) _ _ _ (ws ++ w) f1 out eq_refl N1 N2 Hn' E) as (f' & ws' & Eo & H1 & H2).
    rewrite <- app_assoc in Eo. cbn [app] in Eo. exists f', ws'. split; [exact Eo|]. split.
    + intros r' Hr'. rewrite H1 by (apply in_or_app; now left). rewrite A.
        destruct (reaction_eqb_spec r' r); [subst; contradiction|reflexivity].
    + intros r' [<-|Hr']; [|now apply H2]. exists v, w. split; [exact D|]. rewrite H1 by (apply in_or_app; right; now left).
        rewrite A. now destruct (reaction_eqb_spec r r).
Qed.

Lemma reactivity_length temps r meth v w : reactivity m u temps (IReact r) meth = Ok (v, w) -> length v = length temps.
Proof.
  unfold reactivity. cbn [parse_reaction bind].
  assert (X : forall w0 : list warning, (do xs <- cross_section m u r; do v <- reactivity_from_xs u temps xs; Ok (v, w0)) = Ok (v, w) -> length v = length temps).
  { intros w0. destruct (cross_section m u r) as [xs| |]; cbn [bind]; try discriminate.
    destruct (reactivity_from_xs u temps xs) as [v'| |] eqn:Ev; cbn [bind]; try discriminate. intro Q; injection Q as <- <-.
    unfold reactivity_from_xs in Ev. destruct (mapM _ t_grid_kev); cbn [bind] in Ev; try discriminate.
    now apply mapM_Ok_length in Ev. }
  assert (Y : reactivity_bosch_hale temps r = Ok (v, w) -> length v = length temps).
  { unfold reactivity_bosch_hale. destruct (bosch_hale_coefficients r); [|discriminate]. unfold channel_bosch_hale.
    destruct (np_min temps); cbn [bind]; try discriminate. destruct (np_max temps); cbn [bind]; try discriminate.
    destruct (mapM _ temps) as [v'| |] eqn:Ev; cbn [bind]; try discriminate. intro Q; injection Q as <- <-.
    now apply mapM_Ok_length in Ev. }
  destruct meth; [apply X| |]; destruct (bosch_hale_coefficients r); auto; apply X.
Qed.
(** Reactivities are computed cell by cell. *)
Lemma reactivity_elementwise temps r meth v w i T : reactivity m u temps (IReact r) meth = Ok (v, w) ->
  nth_error temps i = Some T -> exists x w', nth_error v i = Some x /\ reactivity m u [T] (IReact r) meth = Ok ([x], w').
Proof.
  intros E Hi. unfold reactivity in *. cbn [parse_reaction bind] in *.
  assert (X : forall w0 : list warning, (do xs <- cross_section m u r; do v <- reactivity_from_xs u temps xs; Ok (v, w0)) = Ok (v, w) ->
    exists x w', nth_error v i = Some x /\ (do xs <- cross_section m u r; do v <- reactivity_from_xs u [T] xs; Ok (v, w0)) = Ok ([x], w')).
  { intros w0. destruct (cross_section m u r) as [xs| |]; cbn [bind]; try discriminate. unfold reactivity_from_xs.
    destruct (mapM (interp1d_call (xs_tab xs)) t_grid_kev); cbn [bind]; try discriminate.
    destruct (mapM _ temps) as [v'| |] eqn:Ev; cbn [bind]; try discriminate. intro Q; injection Q as <- <-.
    destruct (mapM_nth_error _ _ _ _ _ Ev Hi) as (x & Hx & Ex). exists x, w0. split; [exact Hx|]. cbn [mapM]. rewrite Ex. reflexivity. }
  assert (Y : reactivity_bosch_hale temps r = Ok (v, w) -> exists x w', nth_error v i = Some x /\ reactivity_bosch_hale [T] r = Ok ([x], w')).
  { unfold reactivity_bosch_hale. destruct (bosch_hale_coefficients r) as [d|]; [|discriminate]. unfold channel_bosch_hale.
    destruct (np_min temps); cbn [bind]; try discriminate. destruct (np_max temps); cbn [bind]; try discriminate.
    destruct (mapM _ temps) as [v'| |] eqn:Ev; cbn [bind]; try discriminate. intro Q; injection Q as <- <-.
    destruct (mapM_nth_error _ _ _ _ _ Ev Hi) as (x & Hx & Ex). exists x. eexists. split; [exact Hx|].
    cbn [np_min np_max bind fold_left mapM]. rewrite Ex. cbn [bind]. reflexivity. }
  destruct meth; [now apply (X [])| |]; destruct (bosch_hale_coefficients r); auto.
Qed.

Lemma dens_nth dd dt dh i a b c : nth_error dd i = Some a -> nth_error dt i = Some b -> nth_error dh i = Some c ->
  nth_error (map2 (fun a bc => {| nd := a; nt := fst bc; nhe3 := snd bc |}) dd (combine dt dh)) i = Some {| nd := a; nt := b; nhe3 := c |}.
Proof.
  intros H1 H2 H3. rewrite (map2_nth_error _ _ _ _ a (b, c) H1); [reflexivity|]. clear H1.
  revert dt dh H2 H3; induction i as [|i IH]; intros [|x dt] [|y dh]; cbn; try discriminate; intros; auto. congruence.
Qed.

Lemma parse_NoDup arg types : parse_source_type arg = Ok types -> NoDup types.
Proof.
  intro E. pose proof (parse_Ok_valid arg types E) as V. destruct (parse_source_type_spec arg) as [S _].
  destruct (S V) as (out & E' & _ & N). rewrite E in E'. injection E' as ->.
  clear -N. induction N as [|a l Hs IH Ha]; [constructor|]. constructor; [|exact IH].
  intro Hi. rewrite Forall_forall in Ha. specialize (Ha a Hi). lia.
Qed.

Definition make_bare (inside : list (R * R) -> R * R -> bool) h tr fm arg side meth := make_source m u inside h tr fm arg side None meth.

Lemma make_bare_ok inside h tr fm arg side meth s ws :
  make_source m u inside h tr fm arg side None meth = Ok (s, ws) ->
  parse_source_type arg = Ok (source_type s) /\
  sample_space_2d inside (fm_lcfs fm) (fm_o fm) side = Ok (cells s) /\
  cell_side s = side /\ src_map s = fm /\ src_transport s = tr /\
  exists psi dd dt dh f,
    mapM (fun c => fm_psi_norm fm (fst (fst c), snd (fst c))) (cells s) = Ok psi /\
    mapM (read h (temp_prof tr)) psi = Ok (temperature s) /\
    mapM (read h (d_prof tr)) psi = Ok dd /\ mapM (read h (t_prof tr)) psi = Ok dt /\ mapM (read h (he3_prof tr)) psi = Ok dh /\
    consistent s f /\
    (forall r, In r (source_type s) -> exists v w,
      density_weighted_reactivity m u (temperature s) (map2 (fun a bc => {| nd := a; nt := fst bc; nhe3 := snd bc |}) dd (combine dt dh)) (IReact r) meth = Ok (v, w)
      /\ f r = map2 Rmult v (map snd (cells s))).
Proof.
  unfold make_source.
  destruct (parse_source_type arg) as [types| |] eqn:Ep; cbn [bind]; try discriminate.
  destruct (sample_space_2d inside (fm_lcfs fm) (fm_o fm) side) as [cs| |] eqn:Es; cbn [bind]; try discriminate.
  destruct (mapM (fun c => fm_psi_norm fm (fst (fst c), snd (fst c))) cs) as [psi| |] eqn:E1; cbn [bind]; try discriminate.
  destruct (mapM (read h (temp_prof tr)) psi) as [temps| |] eqn:E2; cbn [bind]; try discriminate.
  destruct (mapM (read h (d_prof tr)) psi) as [dd| |] eqn:E3; cbn [bind]; try discriminate.
  destruct (mapM (read h (t_prof tr)) psi) as [dt| |] eqn:E4; cbn [bind]; try discriminate.
  destruct (mapM (read h (he3_prof tr)) psi) as [dh| |] eqn:E5; cbn [bind]; try discriminate.
  set (ds := map2 _ dd (combine dt dh)).
  destruct (add_reactions m u temps ds (map snd cs) meth ([], [], [], []) types) as [out| |] eqn:Ea; cbn [bind]; try discriminate.
  pose proof (parse_NoDup arg types Ep) as N.
  destruct (add_reactions_ok temps ds (map snd cs) meth types [] [] [] [] [] (fun _ => []) out eq_refl eq_refl eq_refl N Ea)
    as (f & ws' & -> & _ & Hf). cbn [app].
  intro E; injection E as <- <-. cbn [source_type cells cell_side src_map src_transport temperature strength num_reactions num_neutrons_ps].
  split; [reflexivity|]. split; [reflexivity|]. split; [reflexivity|]. split; [reflexivity|]. split; [reflexivity|].
  exists psi, dd, dt, dh, f. repeat (split; [assumption|]).
  split; [|exact Hf]. unfold consistent; cbn [source_type cells strength num_reactions num_neutrons_ps].
  split; [exact N|]. split; [reflexivity|]. split; [reflexivity|]. split; [reflexivity|].
  intros r Hr. destruct (Hf r Hr) as (v & w & Dw & ->). 
  apply mapM_Ok_length in E1, E2, E3, E4, E5.
  unfold density_weighted_reactivity in Dw. cbn [parse_reaction bind] in Dw.
  destruct (reactivity m u temps (IReact r) meth) as [[v0 w0]| |] eqn:Er; cbn [bind fst snd] in Dw; try discriminate.
  injection Dw as <- <-. apply reactivity_length in Er. unfold ds.
  rewrite !map2_length, combine_length, map_length. rewrite Er, E2, E3, E4, E5, E1, !Nat.min_id. reflexivity.
Qed.

Lemma make_source_split inside h tr fm arg side P meth s ws :
  make_source m u inside h tr fm arg side (Some P) meth = Ok (s, ws) ->
  exists s0, make_source m u inside h tr fm arg side None meth = Ok (s0, ws) /\ normalise_fusion_power m s0 P = Ok s.
Proof.
  unfold make_source.
  destruct (parse_source_type arg) as [types| |]; cbn [bind]; try discriminate.
  destruct (sample_space_2d inside (fm_lcfs fm) (fm_o fm) side) as [cs| |]; cbn [bind]; try discriminate.
  destruct (mapM (fun c => fm_psi_norm fm (fst (fst c), snd (fst c))) cs) as [psi| |]; cbn [bind]; try discriminate.
  destruct (mapM (read h (temp_prof tr)) psi) as [temps| |]; cbn [bind]; try discriminate.
  destruct (mapM (read h (d_prof tr)) psi) as [dd| |]; cbn [bind]; try discriminate.
  destruct (mapM (read h (t_prof tr)) psi) as [dt| |]; cbn [bind]; try discriminate.
  destruct (mapM (read h (he3_prof tr)) psi) as [dh| |]; cbn [bind]; try discriminate.
  destruct (add_reactions _ _ _ _ _ _ _ _) as [[[[st nr] nn] w]| |]; cbn [bind]; try discriminate.
  match goal with |- context [normalise_fusion_power m ?x P] => set (s0 := x) end.
  destruct (normalise_fusion_power m s0 P) as [s'| |] eqn:En; cbn [bind]; try discriminate.
  intro E; injection E as <- <-. exists s0. auto.
Qed.

Lemma normalise_consistent s f P s' : consistent s f -> normalise_fusion_power m s P = Ok s' ->
  s' = times (P / power m s) s /\ power m s <> 0 /\ source_type s <> [].
Proof.
  intros C E. destruct (normalise_cases s f P C) as (A & B & D).
  destruct (source_type s) as [|r l] eqn:Q; [rewrite A in E by reflexivity; discriminate|].
  destruct (Req_dec (power m s) 0) as [Z|Z]; [rewrite B in E by (congruence || assumption); discriminate|].
  rewrite D in E by (congruence || assumption). split; [congruence|]. split; [exact Z|discriminate].
Qed.
Lemma normalise_all_consistent Ps : forall s f s', consistent s f -> normalise_all m s Ps = Ok s' ->
  exists k, s' = times k s.
Proof.
  induction Ps as [|P Ps IH]; intros s f s' C; cbn [normalise_all].
  - intro E; injection E as <-. exists 1. now rewrite times_1.
  - destruct (normalise_fusion_power m s P) as [s1| |] eqn:E1; cbn [bind]; try discriminate. intro E.
    destruct (normalise_consistent s f P s1 C E1) as (-> & _ & _).
    destruct (IH _ _ s' (times_consistent s f _ C) E) as [k ->]. exists (P / power m s * k). now rewrite times_times.
Qed.
Lemma reachable_consistent s : reachable m u s -> exists f, consistent s f.
Proof.
  intros (inside & h & tr & fm & arg & side & P & meth & s0 & ws & Ps & E & En).
  assert (C0 : exists f, consistent s0 f).
  { destruct P as [P|].
    - apply make_source_split in E. destruct E as (s1 & E1 & En1).
      apply make_bare_ok in E1. destruct E1 as (_ & _ & _ & _ & _ & psi & dd & dt & dh & f & _ & _ & _ & _ & _ & C & _).
      destruct (normalise_consistent s1 f P s0 C En1) as (-> & _ & _). eexists. apply times_consistent, C.
    - apply make_bare_ok in E. destruct E as (_ & _ & _ & _ & _ & psi & dd & dt & dh & f & _ & _ & _ & _ & _ & C & _). eauto. }
  destruct C0 as [f C]. destruct (normalise_all_consistent Ps s0 f s C En) as [k ->]. eexists. apply times_consistent, C.
Qed.

Lemma last_default (l : list R) (q a b : R) : last (q :: l) a = last (q :: l) b.
Proof. revert q; induction l as [|c l IH]; intro q; [reflexivity|]. exact (IH c). Qed.
Lemma normalise_all_ok Ps : forall s f, consistent s f -> source_type s <> [] -> power m s <> 0 ->
  (forall P, In P Ps -> P <> 0) ->
  normalise_all m s Ps = Ok (times (last Ps (power m s) / power m s) s).
Proof.
  induction Ps as [|P Ps IH]; intros s f C Ht Hp HP; cbn [normalise_all].
  - cbn [last]. replace (power m s / power m s) with 1 by (field; exact Hp). now rewrite times_1.
  - destruct (normalise_cases s f P C) as (_ & _ & D). rewrite D by assumption. cbn [bind].
    assert (P <> 0) by (apply HP; now left).
    assert (Pn : power m (times (P / power m s) s) = P) by (rewrite (power_times s f _ C); field; exact Hp).
    rewrite (IH _ _ (times_consistent s f _ C)); [|exact Ht|rewrite Pn; assumption|intros; apply HP; now right].
    rewrite times_times, Pn. f_equal. f_equal. destruct Ps as [|Q Ps]; [cbn [last]; field; auto|].
    change (last (P :: Q :: Ps) (power m s)) with (last (Q :: Ps) (power m s)).
    rewrite (last_default Ps Q P (power m s)). field. auto.
Qed.
End M.

(** ** When the constructor succeeds *)
Section Total.
Variables (m : masses) (u : units).
Hypotheses (Hm : physical_masses m) (Hu : 0 < amu_kg u) (Hk : 0 < keV_J u).

Lemma reactivity_total temps r meth : temps <> [] -> (forall T, In T temps -> 0 < T <= 100) ->
  exists v w, reactivity m u temps (IReact r) meth = Ok (v, w) /\ Forall (fun x => 0 < x) v.
Proof.
  intros Hn HT.
  assert (B : fitted r -> exists v w, reactivity_bosch_hale temps r = Ok (v, w) /\ Forall (fun x => 0 < x) v).
  { intro Hf. assert (Hg : forall T, In T temps -> bh_good r T) by (intros T H; right; left; specialize (HT T H); lra).
    destruct (bh_ok r temps Hf Hn Hg) as (w & E & _). exists (map (published_SI r) temps), w. split; [exact E|].
    apply Forall_forall. intros x Hx. apply in_map_iff in Hx. destruct Hx as (T & <- & H). apply fitted_point; auto. now apply HT. }
  assert (X : forall w0 : list warning, exists v, (do xs <- cross_section m u r; do v <- reactivity_from_xs u temps xs; Ok (v, w0)) = Ok (v, w0) /\ Forall (fun x => 0 < x) v).
  { intro w0. destruct (cross_section_full m u r Hm Hu) as (xs & s & E & _ & P & _ & Hs).
    destruct (from_xs_ok u xs s temps Hk P Hs) as [E1 E2]; [intros T H; now apply HT|].
    rewrite E. cbn [bind]. rewrite E1. cbn [bind]. eexists; split; [reflexivity|].
    apply Forall_forall. intros x Hx. apply in_map_iff in Hx. destruct Hx as (T & <- & H). now apply E2. }
  assert (D : fitted r \/ ~ fitted r). { destruct r; unfold fitted; auto; right; intros [H|[H|H]]; discriminate. }
  unfold reactivity. cbn [parse_reaction bind].
  destruct D as [Hf|Hf].
  - destruct (fitted_coeffs r Hf) as (C & _). destruct meth; rewrite ?C; [|now apply B|now apply B].
    destruct (X []) as (v & E & P). eauto.
  - rewrite (not_fitted r Hf). destruct meth; destruct (X []) as (v & E & P); eauto.
    destruct (X [WNoBoschHale r]) as (v' & E' & P'). eauto.
Qed.

Lemma add_reactions_total temps ds vols meth l : temps <> [] -> (forall T, In T temps -> 0 < T <= 100) ->
  forall acc, exists out, add_reactions m u temps ds vols meth acc l = Ok out.
Proof.
  intros Hn HT. induction l as [|r l IH]; intro acc; cbn [add_reactions]; [eauto|].
  destruct acc as [[[st nr] nn] ws]. unfold add_reaction, density_weighted_reactivity. cbn [parse_reaction bind].
  destruct (reactivity_total temps r meth Hn HT) as (v & w & E & _). rewrite E. cbn [bind fst snd]. apply IH.
Qed.
End Total.

Lemma T_rate_sum g l : NoDup l ->
  total (map (fun r => INR (tritons r) * g r) l) = (if memb DT l then g DT else 0) + 2 * (if memb TT l then g TT else 0).
Proof.
  induction 1 as [|r l Hr Hl IH]; [cbn; ring|]. cbn [map total]. rewrite IH.
  assert (K : forall x, memb x (r :: l) = reaction_eqb x r || memb x l) by reflexivity. rewrite !K.
  assert (F : ~ In r l) by exact Hr. rewrite <- memb_In in F.
  destruct r; cbn [reaction_eqb orb];
  repeat match goal with |- context [reaction_eqb ?a ?b] =>
    let e := fresh in destruct (reaction_eqb_spec a b) as [e|e]; [try discriminate e|try congruence] end; cbn [orb].
  - destruct (memb DT l); [congruence|]. change (INR (tritons DT)) with 1. ring.
  - change (INR (tritons DDn)) with 0. ring.
  - destruct (memb TT l); [congruence|]. replace (INR (tritons TT)) with 2 by (change (INR (tritons TT)) with (INR 2); cbn; ring). ring.
  - change (INR (tritons DDp)) with 0. ring.
  - change (INR (tritons DHe3)) with 0. ring.
Qed.
Lemma tritons_le_neutrons r : (tritons r <= num_neutrons r)%nat.
Proof. destruct r; vm_compute; lia. Qed.
Lemma neutrons_label r : neutrons r = num_neutrons r.
Proof. destruct r; reflexivity. Qed.
Lemma total_le {A} (f g : A -> R) l : (forall a, In a l -> f a <= g a) -> total (map f l) <= total (map g l).
Proof.
  induction l as [|a l IH]; intro H; cbn [map total]; [lra|].
  pose proof (H a (or_introl eq_refl)). assert (total (map f l) <= total (map g l)) by (apply IH; intros; apply H; now right). lra.
Qed.
