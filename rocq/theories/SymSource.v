(** Lemmas for C90-C92 about whole sources. *)
From Coq Require Import Sorted Permutation.
From Verif Require Import Base Reactions SpecReactions ReactionsProofs Profile Transport Space SpecSpace SpaceProofs P_Space
  Reactivity SpecReactivity ReactivityProofs P_Reactivity Source SpecSource SourceProofs P_Source SpecFlux SpecSym SymProofs.

(** ** Same order: cells carried one by one *)
Definition scaled_acc (k : R) (acc : dict (list R) * dict R * dict R * list warning) : dict (list R) * dict R * dict R * list warning :=
  let '(st, nr, nn, ws) := acc in
  (map (fun p => (fst p, map (fun x => k * x) (snd p))) st, map (fun p => (fst p, k * snd p)) nr, map (fun p => (fst p, k * snd p)) nn, ws).
Lemma dset_map {A B} (f : A -> B) (d : dict A) r a : dset (map (fun p => (fst p, f (snd p))) d) r (f a) = map (fun p => (fst p, f (snd p))) (dset d r a).
Proof. induction d as [|[k b] d IH]; [reflexivity|]. cbn [map dset fst snd]. destruct (reaction_eqb r k); cbn [map fst snd]; [reflexivity|]. now rewrite IH. Qed.
Lemma dlookup_map {A B} (f : A -> B) (d : dict A) r : dlookup (map (fun p => (fst p, f (snd p))) d) r = res_map f (dlookup d r).
Proof. unfold dlookup. induction d as [|[k b] d IH]; [reflexivity|]. cbn [map dget fst snd]. destruct (reaction_eqb r k); [reflexivity|exact IH]. Qed.
Lemma total_scale_l k l : total (map (fun x => k * x) l) = k * total l.
Proof. induction l as [|x l IH]; cbn [map total]; [ring|]. rewrite IH. ring. Qed.
Lemma map2_scale_r k v vols : map2 Rmult v (map (fun x => k * x) vols) = map (fun x => k * x) (map2 Rmult v vols).
Proof. revert vols; induction v as [|x v IH]; intros [|y vols]; cbn [map map2]; try reflexivity. rewrite IH. f_equal. ring. Qed.

Section S.
Variables (m : masses) (u : units).
Lemma add_reactions_scaled k temps ds vols meth l acc :
  add_reactions m u temps ds (map (fun x => k * x) vols) meth (scaled_acc k acc) l = res_map (scaled_acc k) (add_reactions m u temps ds vols meth acc l).
Proof.
  revert acc. induction l as [|r l IH]; intro acc; [reflexivity|]. cbn [add_reactions]. destruct acc as [[[st nr] nn] ws].
  unfold add_reaction, scaled_acc at 1. destruct (density_weighted_reactivity m u temps ds (IReact r) meth) as [[v w]| |]; cbn [bind]; try reflexivity.
  rewrite map2_scale_r. rewrite dset_map. rewrite pysum_total, total_scale_l, <- pysum_total.
  rewrite (dset_map (fun x => k * x)). rewrite Rmult_assoc. rewrite (dset_map (fun x => k * x)).
  set (acc' := (dset st r (map2 Rmult v vols), dset nr r (pysum (map2 Rmult v vols)), dset nn r (pysum (map2 Rmult v vols) * INR (num_neutrons r)), ws ++ w)).
  exact (IH acc').
Qed.

Lemma mapM_map {A B C} (f : A -> B) (g : B -> res C) l : mapM g (map f l) = mapM (fun a => g (f a)) l.
Proof. induction l as [|a l IH]; [reflexivity|]. cbn [map mapM]. now rewrite IH. Qed.
Lemma mapM_ext' {A B} (f g : A -> res B) l : (forall a, f a = g a) -> mapM f l = mapM g l.
Proof. intro H. induction l as [|a l IH]; [reflexivity|]. cbn [mapM]. now rewrite H, IH. Qed.

Lemma make_carried inside h tr fm fm' arg side side' meth g v : 
  (sample_space_2d inside (fm_lcfs fm') (fm_o fm') side' = res_map (map (carry g v)) (sample_space_2d inside (fm_lcfs fm) (fm_o fm) side)) ->
  (forall p, fm_psi_norm fm' (g p) = fm_psi_norm fm p) ->
  make_source m u inside h tr fm' arg side' None meth =
  res_map (fun sw => (relocated g v v side' fm' (fst sw), snd sw)) (make_source m u inside h tr fm arg side None meth).
Proof.
  intros Es Hp. unfold make_source. destruct (parse_source_type arg) as [types| |]; cbn [bind]; try reflexivity.
  rewrite Es. destruct (sample_space_2d inside (fm_lcfs fm) (fm_o fm) side) as [cs| |]; unfold res_map at 1; cbn [bind]; try reflexivity.
  rewrite mapM_map. rewrite (mapM_ext' (fun c => fm_psi_norm fm' (fst (fst (carry g v c)), snd (fst (carry g v c)))) (fun c => fm_psi_norm fm (fst (fst c), snd (fst c))) cs).
  2:{ intro c. unfold carry. cbn [fst snd]. rewrite <- surjective_pairing. apply Hp. }
  match goal with |- bind ?X _ = res_map _ (bind ?Y _) => change Y with X; destruct X as [psi| |]; cbn [bind]; try reflexivity end.
  destruct (mapM (read h (temp_prof tr)) psi) as [temps| |]; cbn [bind]; try reflexivity.
  destruct (mapM (read h (d_prof tr)) psi) as [dd| |]; cbn [bind]; try reflexivity.
  destruct (mapM (read h (t_prof tr)) psi) as [dt| |]; cbn [bind]; try reflexivity.
  destruct (mapM (read h (he3_prof tr)) psi) as [dh| |]; cbn [bind]; try reflexivity.
  set (ds := map2 _ dd (combine dt dh)).
  assert (Ev : map snd (map (carry g v) cs) = map (fun x => v * x) (map snd cs)) by (rewrite !map_map; reflexivity). rewrite Ev.
  pose proof (add_reactions_scaled v temps ds (map snd cs) meth types ([], [], [], [])) as Q. cbn [scaled_acc map] in Q. rewrite Q.
  destruct (add_reactions m u temps ds (map snd cs) meth ([], [], [], []) types) as [[[[st nr] nn] ws]| |]; reflexivity.
Qed.

Lemma relocated_consistent g v v' side fm s f : consistent s f -> consistent (relocated g v v' side fm s) (fun r => map (fun x => v' * x) (f r)).
Proof.
  intros (N & E1 & E2 & E3 & L). unfold consistent, relocated; cbn [source_type strength num_reactions num_neutrons_ps cells].
  rewrite E1, E2, E3. unfold dmap. rewrite !map_map. cbn [fst snd]. split; [exact N|]. split; [reflexivity|].
  split; [|split].
  - apply map_ext. intro r. now rewrite !pysum_total, total_scale_l.
  - apply map_ext. intro r. now rewrite !pysum_total, total_scale_l, Rmult_assoc.
  - intros r Hr. now rewrite !map_length, L.
Qed.
Lemma relocated_power g v v' side fm s f : consistent s f -> power m (relocated g v v' side fm s) = v' * power m s.
Proof.
  intro C. unfold power, relocated. cbn [strength]. rewrite map_map. cbn [fst snd]. rewrite <- total_scale_l, map_map.
  f_equal. apply map_ext. intro p. rewrite total_scale_l. ring.
Qed.

Lemma normalise_relocated g v side fm s f P : consistent s f -> v <> 0 ->
  normalise_fusion_power m (relocated g v v side fm s) P = res_map (relocated g v 1 side fm) (normalise_fusion_power m s P).
Proof.
  intros C Hv. destruct (normalise_cases m s f P C) as (A & B & D).
  destruct (normalise_cases m _ _ P (relocated_consistent g v v side fm s f C)) as (A' & B' & D').
  assert (St : source_type (relocated g v v side fm s) = source_type s) by reflexivity. rewrite St in *.
  rewrite (relocated_power g v v side fm s f C) in *.
  destruct (list_eq_dec reaction_eq_dec (source_type s) []) as [Q|Q]; [rewrite A, A' by exact Q; reflexivity|].
  destruct (Req_dec (power m s) 0) as [Z|Z]; [rewrite B, B' by (rewrite ?Z; auto; ring); reflexivity|].
  rewrite D, D' by (auto; intro K; apply Rmult_integral in K; tauto). unfold res_map. cbn [bind]. f_equal.
  unfold times, relocated. cbn [source_type cells cell_side temperature strength num_reactions num_neutrons_ps src_map src_transport].
  rewrite !map_map. cbn [fst snd]. f_equal; apply map_ext; intros [r x]; cbn [fst snd]; f_equal; [rewrite !map_map; apply map_ext; intro y| |]; field; split; assumption.
Qed.

Lemma make_carried_normalised inside h tr fm fm' arg side side' meth g v P : v <> 0 ->
  (sample_space_2d inside (fm_lcfs fm') (fm_o fm') side' = res_map (map (carry g v)) (sample_space_2d inside (fm_lcfs fm) (fm_o fm) side)) ->
  (forall p, fm_psi_norm fm' (g p) = fm_psi_norm fm p) ->
  make_source m u inside h tr fm' arg side' (Some P) meth =
  res_map (fun sw => (relocated g v 1 side' fm' (fst sw), snd sw)) (make_source m u inside h tr fm arg side (Some P) meth).
Proof.
  intros Hv Es Hp.
  assert (Sp : forall inside fm side, make_source m u inside h tr fm arg side (Some P) meth =
    do sw <- make_source m u inside h tr fm arg side None meth; do s' <- normalise_fusion_power m (fst sw) P; Ok (s', snd sw)).
  { clear. intros inside fm side. unfold make_source. destruct (parse_source_type arg) as [types| |]; cbn [bind]; try reflexivity.
    destruct (sample_space_2d inside (fm_lcfs fm) (fm_o fm) side) as [cs| |]; cbn [bind]; try reflexivity.
    destruct (mapM (fun c => fm_psi_norm fm (fst (fst c), snd (fst c))) cs) as [psi| |]; cbn [bind]; try reflexivity.
    destruct (mapM (read h (temp_prof tr)) psi) as [temps| |]; cbn [bind]; try reflexivity.
    destruct (mapM (read h (d_prof tr)) psi) as [dd| |]; cbn [bind]; try reflexivity.
    destruct (mapM (read h (t_prof tr)) psi) as [dt| |]; cbn [bind]; try reflexivity.
    destruct (mapM (read h (he3_prof tr)) psi) as [dh| |]; cbn [bind]; try reflexivity.
    destruct (add_reactions m u temps _ (map snd cs) meth ([], [], [], []) types) as [[[[st nr] nn] ws]| |]; reflexivity. }
  rewrite !Sp. rewrite (make_carried inside h tr fm fm' arg side side' meth g v Es Hp).
  destruct (make_source m u inside h tr fm arg side None meth) as [[s ws]| |] eqn:E; unfold res_map; cbn [bind fst snd]; try reflexivity.
  apply make_bare_ok in E. destruct E as (_ & _ & _ & _ & _ & psi & dd & dt & dh & f & _ & _ & _ & _ & _ & C & _).
  rewrite (normalise_relocated g v side' fm' s f P C Hv). destruct (normalise_fusion_power m s P); reflexivity.
Qed.

(** ** Any order *)
Lemma mapM_perm {A B} (f : A -> res B) l l' v : Permutation l l' -> mapM f l = Ok v -> exists v', mapM f l' = Ok v' /\ Permutation (combine l v) (combine l' v').
Proof.
  intro P. revert v. induction P as [|x l l' P IH|x y l|l1 l2 l3 P1 IH1 P2 IH2]; intros v E.
  - exists v. split; [exact E|]. reflexivity.
  - cbn [mapM] in E. destruct (f x) as [b| |] eqn:Eb; cbn [bind] in E; try discriminate. destruct (mapM f l) as [bs| |] eqn:El; cbn [bind] in E; try discriminate.
    injection E as <-. destruct (IH bs eq_refl) as (bs' & E' & P'). exists (b :: bs'). cbn [mapM]. rewrite Eb, E'. split; [reflexivity|]. cbn [combine]. now constructor.
  - cbn [mapM] in E. destruct (f y) as [c| |] eqn:Ec; cbn [bind] in E; try discriminate. destruct (f x) as [b| |] eqn:Eb; cbn [bind] in E; try discriminate.
    destruct (mapM f l) as [bs| |] eqn:El; cbn [bind] in E; try discriminate. injection E as <-. exists (b :: c :: bs). cbn [mapM]. rewrite Eb, Ec, El. cbn [bind combine].
    split; [reflexivity|]. constructor.
  - destruct (IH1 v E) as (v2 & E2 & Q2). destruct (IH2 v2 E2) as (v3 & E3 & Q3). exists v3. split; [exact E3|]. now transitivity (combine l2 v2).
Qed.
Lemma perm_snd {A B} (l l' : list A) (v v' : list B) : length l = length v -> length l' = length v' -> Permutation (combine l v) (combine l' v') -> Permutation v v'.
Proof.
  intros L L' P. apply (Permutation_map snd) in P.
  assert (K : forall (l : list A) (v : list B), length l = length v -> map snd (combine l v) = v).
  { clear. induction l as [|a l IH]; intros [|b v]; cbn; intro H; try discriminate; [reflexivity|]. f_equal. apply IH. now injection H. }
  now rewrite !K in P.
Qed.
Lemma np_min_perm l l' a : Permutation l l' -> np_min l = Ok a -> np_min l' = Ok a.
Proof.
  intros P E. apply np_min_spec in E. destruct E as [E1 E2]. destruct (np_min l') as [b| |] eqn:Eb.
  - apply np_min_spec in Eb. destruct Eb as [F1 F2]. f_equal. apply Rle_antisym.
    + apply F2. eapply Permutation_in; eauto.
    + apply E2. eapply Permutation_in; [symmetry|]; eauto.
  - destruct l'; [apply Permutation_sym, Permutation_nil in P; subst; contradiction|discriminate].
  - destruct l'; discriminate.
Qed.
Lemma np_max_perm l l' a : Permutation l l' -> np_max l = Ok a -> np_max l' = Ok a.
Proof.
  intros P E. apply np_max_spec in E. destruct E as [E1 E2]. destruct (np_max l') as [b| |] eqn:Eb.
  - apply np_max_spec in Eb. destruct Eb as [F1 F2]. f_equal. apply Rle_antisym.
    + apply E2. eapply Permutation_in; [symmetry|]; eauto.
    + apply F2. eapply Permutation_in; eauto.
  - destruct l'; [apply Permutation_sym, Permutation_nil in P; subst; contradiction|discriminate].
  - destruct l'; discriminate.
Qed.
Lemma reactivity_perm temps temps' r meth v w : Permutation temps temps' -> reactivity m u temps (IReact r) meth = Ok (v, w) ->
  exists v', reactivity m u temps' (IReact r) meth = Ok (v', w).
Proof.
  intros P E. unfold reactivity in *. cbn [parse_reaction bind] in *.
  assert (X : forall w0 : list warning, (do xs <- cross_section m u r; do v <- reactivity_from_xs u temps xs; Ok (v, w0)) = Ok (v, w) ->
    exists v', (do xs <- cross_section m u r; do v <- reactivity_from_xs u temps' xs; Ok (v, w0)) = Ok (v', w)).
  { intros w0 Q. destruct (cross_section m u r) as [xs| |]; cbn [bind] in *; try discriminate. unfold reactivity_from_xs in *.
    destruct (mapM _ t_grid_kev); cbn [bind] in *; try discriminate.
    destruct (mapM (xs_point u (reduced_mass xs) (interp1d_call (xs_tab xs))) temps) as [v1| |] eqn:Ev; cbn [bind] in Q; try discriminate. injection Q as <- <-.
    destruct (mapM_perm _ _ _ _ P Ev) as (v' & E' & _). exists v'. rewrite E'. reflexivity. }
  assert (Y : reactivity_bosch_hale temps r = Ok (v, w) -> exists v', reactivity_bosch_hale temps' r = Ok (v', w)).
  { unfold reactivity_bosch_hale. destruct (bosch_hale_coefficients r) as [d|]; [|discriminate]. unfold channel_bosch_hale. intro Q.
    destruct (np_min temps) as [lo| |] eqn:E1; cbn [bind] in Q; try discriminate. destruct (np_max temps) as [hi| |] eqn:E2; cbn [bind] in Q; try discriminate.
    rewrite (np_min_perm _ _ _ P E1), (np_max_perm _ _ _ P E2). cbn [bind].
    destruct (mapM (bh_point d) temps) as [v1| |] eqn:Ev; cbn [bind] in Q; try discriminate. injection Q as <- <-.
    destruct (mapM_perm _ _ _ _ P Ev) as (v' & E' & _). exists v'. rewrite E'. reflexivity. }
  destruct meth; [eapply X; eauto| |]; destruct (bosch_hale_coefficients r); eauto.
Qed.

Lemma add_reactions_perm temps temps' ds ds' vols vols' meth l : Permutation temps temps' -> forall acc acc' out, snd acc = snd acc' ->
  add_reactions m u temps ds vols meth acc l = Ok out -> exists out', add_reactions m u temps' ds' vols' meth acc' l = Ok out' /\ snd out' = snd out.
Proof.
  intros P. induction l as [|r l IH]; intros acc acc' out W E.
  - cbn [add_reactions] in *. injection E as <-. exists acc'. split; [reflexivity|]. congruence.
  - cbn [add_reactions] in *. destruct acc as [[[st nr] nn] ws], acc' as [[[st' nr'] nn'] ws']. cbn [snd] in W. subst ws'.
    unfold add_reaction in *. unfold density_weighted_reactivity in *. cbn [parse_reaction bind] in *.
    destruct (reactivity m u temps (IReact r) meth) as [[v w]| |] eqn:Er; cbn [bind fst snd] in E; try discriminate.
    destruct (reactivity_perm _ _ _ _ _ _ P Er) as (v' & Er'). rewrite Er'. cbn [bind fst snd].
    eapply IH; [|exact E]. reflexivity.
Qed.

Lemma make_perm_ok inside inside' h tr fm fm' arg side side' meth g cs cs' s ws :
  sample_space_2d inside (fm_lcfs fm) (fm_o fm) side = Ok cs -> sample_space_2d inside' (fm_lcfs fm') (fm_o fm') side' = Ok cs' ->
  Permutation (map (carry g 1) cs) cs' -> (forall p, fm_psi_norm fm' (g p) = fm_psi_norm fm p) ->
  make_source m u inside h tr fm arg side None meth = Ok (s, ws) -> exists s', make_source m u inside' h tr fm' arg side' None meth = Ok (s', ws).
Proof.
  intros Ec Ec' P Hp. unfold make_source. destruct (parse_source_type arg) as [types| |]; cbn [bind]; try discriminate.
  rewrite Ec, Ec'. cbn [bind].
  destruct (mapM (fun c => fm_psi_norm fm (fst (fst c), snd (fst c))) cs) as [psi| |] eqn:E1; cbn [bind]; try discriminate.
  assert (E1' : mapM (fun c : sample => fm_psi_norm fm' (fst (fst c), snd (fst c))) (map (carry g 1) cs) = Ok psi).
  { rewrite mapM_map. rewrite <- E1. apply mapM_ext'. intro c. unfold carry. cbn [fst snd]. rewrite <- surjective_pairing. apply Hp. }
  destruct (mapM_perm _ _ _ _ P E1') as (psi' & E1'' & Q). 
  pose proof (mapM_Ok_length _ _ _ E1') as L1. pose proof (mapM_Ok_length _ _ _ E1'') as L2.
  apply perm_snd in Q; [|now rewrite L1|now rewrite L2].
  match goal with |- _ -> exists _, bind ?X _ = _ => change X with (mapM (fun c : sample => fm_psi_norm fm' (fst (fst c), snd (fst c))) cs') end. rewrite E1''. cbn [bind].
  assert (K : forall (f : R -> res R) v, mapM f psi = Ok v -> exists v', mapM f psi' = Ok v' /\ Permutation v v').
  { intros f v E. destruct (mapM_perm f _ _ _ Q E) as (v' & E' & Pv). exists v'. split; [exact E'|]. apply perm_snd in Pv; [exact Pv| |]; symmetry; eapply mapM_Ok_length; eauto. }
  destruct (mapM (read h (temp_prof tr)) psi) as [temps| |] eqn:E2; cbn [bind]; try discriminate. destruct (K _ _ E2) as (temps' & E2' & Pt). rewrite E2'. cbn [bind].
  destruct (mapM (read h (d_prof tr)) psi) as [dd| |] eqn:E3; cbn [bind]; try discriminate. destruct (K _ _ E3) as (dd' & E3' & _). rewrite E3'. cbn [bind].
  destruct (mapM (read h (t_prof tr)) psi) as [dt| |] eqn:E4; cbn [bind]; try discriminate. destruct (K _ _ E4) as (dt' & E4' & _). rewrite E4'. cbn [bind].
  destruct (mapM (read h (he3_prof tr)) psi) as [dh| |] eqn:E5; cbn [bind]; try discriminate. destruct (K _ _ E5) as (dh' & E5' & _). rewrite E5'. cbn [bind].
  match goal with |- context [add_reactions m u temps ?a ?b meth ?c types] => destruct (add_reactions m u temps a b meth c types) as [out| |] eqn:Ea; cbn [bind]; try discriminate end.
  match goal with |- context [add_reactions m u temps' ?a ?b meth ?c types] => destruct (add_reactions_perm temps temps' _ a _ b meth types Pt _ c out eq_refl Ea) as (out' & Ea' & W); rewrite Ea' end.
  destruct out as [[[st nr] nn] ws1], out' as [[[st' nr'] nn'] ws1']. cbn [snd] in W. subst ws1'. cbn [bind]. intro E. injection E as _ <-. eexists. reflexivity.
Qed.

(** The strength of one cell, by C06. *)
Definition cell_rel (h : heap) (tr : transport) (fm : flux_map) (meth : method) (r : reaction) (c : sample) (x : R) : Prop :=
  exists psi T d t h3 sv w a b products,
      fm_psi_norm fm (sx c, sz c) = Ok psi /\
      read h (temp_prof tr) psi = Ok T /\ read h (d_prof tr) psi = Ok d /\
      read h (t_prof tr) psi = Ok t /\ read h (he3_prof tr) psi = Ok h3 /\
      reactivity m u [T] (IReact r) meth = Ok ([sv], w) /\
      equation (label r) = Some ([a; b], products) /\
      x = pair_density (fuel d t h3) a b * sv * svol c.
Lemma cell_rel_carry h tr fm fm' meth r g c x y : (forall p, fm_psi_norm fm' (g p) = fm_psi_norm fm p) ->
  cell_rel h tr fm meth r c x -> cell_rel h tr fm' meth r (carry g 1 c) y -> y = x.
Proof.
  intros Hp (psi & T & d & t & h3 & sv & w & a & b & pr & A1 & A2 & A3 & A4 & A5 & A6 & A7 & A8)
    (psi' & T' & d' & t' & h3' & sv' & w' & a' & b' & pr' & B1 & B2 & B3 & B4 & B5 & B6 & B7 & B8).
  assert (Q : fm_psi_norm fm' (sx (carry g 1 c), sz (carry g 1 c)) = fm_psi_norm fm (sx c, sz c)).
  { unfold carry. set (q := g (sx c, sz c)). unfold sx at 1, sz at 1. cbn [fst snd]. rewrite <- surjective_pairing. apply Hp. }
  rewrite Q, A1 in B1. injection B1 as <-. rewrite A2 in B2. injection B2 as <-. rewrite A3 in B3. injection B3 as <-.
  rewrite A4 in B4. injection B4 as <-. rewrite A5 in B5. injection B5 as <-. rewrite A6 in B6. injection B6 as <- <-. rewrite A7 in B7. injection B7 as <- <- <-.
  assert (V : svol (carry g 1 c) = svol c) by (unfold carry, svol at 1; cbn [snd]; ring). rewrite V in B8. congruence.
Qed.
Lemma strengths_rel inside h tr fm arg side meth s ws r : make_source m u inside h tr fm arg side None meth = Ok (s, ws) -> In r (source_type s) ->
  exists st, dget (strength s) r = Some st /\ Forall2 (cell_rel h tr fm meth r) (cells s) st.
Proof.
  intros E Hr. destruct (C06_strength_formula _ _ _ _ _ _ _ _ _ _ _ E) as (_ & _ & _ & F). destruct (F r Hr) as (st & G & L & K). exists st. split; [exact G|].
  assert (K' : forall i c, nth_error (cells s) i = Some c -> exists x, nth_error st i = Some x /\ cell_rel h tr fm meth r c x).
  { intros i c Hc. destruct (K i c Hc) as (psi & T & d & t & h3 & sv & w & a & b & pr & A1 & A2 & A3 & A4 & A5 & A6 & A7 & A8 & A9).
    eexists. split; [exact A9|]. exists psi, T, d, t, h3, sv, w, a, b, pr. repeat (split; [assumption|]). reflexivity. }
  clear - L K'. revert st L K'. induction (cells s) as [|c l IH]; intros [|x st] L K'; try discriminate; constructor.
  - destruct (K' 0%nat c eq_refl) as (y & Hy & R). injection Hy as <-. exact R.
  - apply IH; [now injection L|]. intros i c' Hc. exact (K' (S i) c' Hc).
Qed.
Lemma perm_Forall2 {A B} (Q : A -> B -> Prop) l l' : Permutation l l' -> forall v', Forall2 Q l' v' -> exists v, Forall2 Q l v /\ Permutation (combine l v) (combine l' v').
Proof.
  induction 1 as [|x l l' P IH|x y l|l1 l2 l3 P1 IH1 P2 IH2]; intros v' H.
  - inversion H; subst. exists []. split; [constructor|reflexivity].
  - inversion H as [|? b ? bs Hb Hbs]; subst. destruct (IH bs Hbs) as (v & F & P'). exists (b :: v). split; [now constructor|]. cbn [combine]. now constructor.
  - inversion H as [|? b ? bs Hb Hbs]; subst. inversion Hbs as [|? c ? cs Hc Hcs]; subst. exists (c :: b :: cs). split; [repeat constructor; assumption|]. cbn [combine]. constructor.
  - destruct (IH2 v' H) as (v2 & F2 & Q2). destruct (IH1 v2 F2) as (v1 & F1 & Q1). exists v1. split; [exact F1|]. now transitivity (combine l2 v2).
Qed.
Lemma total_perm l l' : Permutation l l' -> total l = total l'.
Proof. induction 1; cbn [total]; lra. Qed.

Lemma make_rearranged inside inside' h tr fm fm' arg side side' meth g cs cs' s ws s' ws' :
  sample_space_2d inside (fm_lcfs fm) (fm_o fm) side = Ok cs -> sample_space_2d inside' (fm_lcfs fm') (fm_o fm') side' = Ok cs' ->
  Permutation (map (carry g 1) cs) cs' -> (forall p, fm_psi_norm fm' (g p) = fm_psi_norm fm p) ->
  make_source m u inside h tr fm arg side None meth = Ok (s, ws) -> make_source m u inside' h tr fm' arg side' None meth = Ok (s', ws') ->
  rearranged (power m) g s s'.
Proof.
  intros Ec Ec' P Hp E E'. pose proof E as E0. pose proof E' as E0'.
  apply make_bare_ok in E. destruct E as (Ep & Es & _ & _ & _ & ps & _ & _ & _ & f & _ & _ & _ & _ & _ & C & _).
  apply make_bare_ok in E'. destruct E' as (Ep' & Es' & _ & _ & _ & ps' & _ & _ & _ & f' & _ & _ & _ & _ & _ & C' & _).
  rewrite Ec in Es. injection Es as ->. rewrite Ec' in Es'. injection Es' as ->.
  assert (Et : source_type s' = source_type s) by congruence.
  assert (Cc := C). assert (Cc' := C'). destruct C as (N & C1 & C2 & C3 & L). destruct C' as (N' & C1' & C2' & C3' & L'). rewrite Et in *.
  assert (K : forall r, In r (source_type s) -> Permutation (map (fun p => (carry g 1 (fst p), snd p)) (combine (cells s) (f r))) (combine (cells s') (f' r))).
  { intros r Hr. destruct (strengths_rel _ _ _ _ _ _ _ _ _ r E0 Hr) as (st & G & F). destruct (strengths_rel _ _ _ _ _ _ _ _ _ r E0') as (st' & G' & F'); [now rewrite Et|].
    rewrite C1, dget_dmap_in in G by exact Hr. injection G as ->. rewrite C1', dget_dmap_in in G' by exact Hr. injection G' as ->.
    destruct (perm_Forall2 _ _ _ P _ F') as (st0 & F0 & Q). rewrite <- Q.
    assert (st0 = st /\ length st = length (cells s)) as [-> Ls].
    { clear - F F0 Hp. revert st0 F0. induction F as [|c x l st Hc F IH]; intros st0 F0; [inversion F0; split; reflexivity|].
      cbn [map] in F0. inversion F0 as [|? y ? ys Hy Hys]; subst. destruct (IH _ Hys) as [-> Ll]. split; [f_equal; exact (cell_rel_carry _ _ _ _ _ _ _ _ _ _ Hp Hc Hy)|cbn [length]; congruence]. }
    assert (X : forall (l : list sample) (v : list R), map (fun p => (carry g 1 (fst p), snd p)) (combine l v) = combine (map (carry g 1) l) v).
    { induction l as [|c l IH]; intros [|x v]; cbn [combine map fst snd]; try reflexivity. now rewrite IH. }
    rewrite X. reflexivity. }
  assert (T : forall r, In r (source_type s) -> pysum (f' r) = pysum (f r)).
  { intros r Hr. specialize (K r Hr). apply (Permutation_map snd) in K. rewrite map_map in K. cbn [snd] in K.
    assert (X : forall (l : list sample) (v : list R), length v = length l -> map snd (combine l v) = v).
    { induction l as [|c l IH]; intros [|x v]; cbn; intro H; try discriminate; [reflexivity|]. f_equal. apply IH. now injection H. }
    assert (X' : forall (l : list sample) (v : list R), length v = length l -> map (fun p => snd p) (combine l v) = v) by exact X.
    rewrite X' in K by now apply L. rewrite X in K by now apply L'. rewrite !pysum_total. symmetry. now apply total_perm. }
  split; [exact Et|]. split; [exact P|]. split; [|split; [|split]].
  - intros r Hr. exists (f r), (f' r), (pysum (f r)), (pysum (f r) * INR (num_neutrons r)). rewrite C1, C1', C2, C2', C3, C3', !dget_dmap_in by exact Hr.
    rewrite (T r Hr). repeat (split; [reflexivity|]). split; [now apply K|]. repeat (split; [reflexivity|]). reflexivity.
  - unfold source_rate. rewrite C3, C3', !map_snd_dmap. f_equal. apply map_ext_in. intros r Hr. now rewrite T.
  - unfold source_T_rate, dget0. rewrite C2, C2', !dget_dmap.
    assert (Z : forall r, (if memb r (source_type s) then Some (pysum (f' r)) else None) = (if memb r (source_type s) then Some (pysum (f r)) else None)).
    { intro r. destruct (memb r (source_type s)) eqn:Q; [|reflexivity]. f_equal. apply T. now apply memb_In. }
    now rewrite !Z.
  - rewrite (power_eq m s f Cc), (power_eq m s' f' Cc'), Et. f_equal. apply map_ext_in. intros r Hr. now rewrite T.
Qed.

Lemma map_combine_snd {A} (k : R) (l : list A) v : map (fun p => (fst p, snd p * k)) (combine l v) = combine l (map (fun x => x * k) v).
Proof. revert v; induction l as [|a l IH]; intros [|x v]; cbn [combine map fst snd]; try reflexivity. now rewrite IH. Qed.
Lemma dget_map {A B} (f : A -> B) (d : dict A) r : dget (map (fun p => (fst p, f (snd p))) d) r = option_map f (dget d r).
Proof. induction d as [|[k b] d IH]; [reflexivity|]. cbn [map dget fst snd]. destruct (reaction_eqb r k); [reflexivity|exact IH]. Qed.
Lemma rearranged_times g s s' k : rearranged (power m) g s s' -> rearranged (power m) g (times k s) (times k s').
Proof.
  intros (Et & Pc & K & R1 & R2 & R3). split; [exact Et|]. split; [exact Pc|]. split; [|split; [|split]].
  - intros r Hr. destruct (K r Hr) as (st & st' & n & kk & A1 & A2 & A3 & A4 & A5 & A6 & A7).
    exists (map (fun x => x * k) st), (map (fun x => x * k) st'), (n * k), (kk * k). unfold times. cbn [strength num_reactions num_neutrons_ps cells].
    rewrite !(dget_map (map (fun x => x * k))), !(dget_map (fun x => x * k)), A1, A2, A4, A5, A6, A7. cbn [option_map].
    repeat (split; [reflexivity|]). split; [|repeat split; reflexivity].
    rewrite <- !map_combine_snd. apply (Permutation_map (fun p => (fst p, snd p * k))) in A3. rewrite map_map in *. cbn [fst snd] in *. exact A3.
  - unfold source_rate, times in *. cbn [num_neutrons_ps]. rewrite !map_map. cbn [snd].
    assert (X : forall d : dict R, pysum (map (fun x => snd x * k) d) = pysum (map snd d) * k) by (intro d; rewrite !pysum_total; induction d as [|p d IH]; cbn [map total]; [ring|]; rewrite IH; ring).
    now rewrite !X, R1.
  - unfold source_T_rate, times, dget0 in *. cbn [num_reactions]. rewrite !(dget_map (fun x => x * k)). rewrite !pysum_total in *. cbn [total] in *.
    assert (Y : forall o : option R, match option_map (fun x => x * k) o with Some x => x | None => 0 end = match o with Some x => x | None => 0 end * k) by (intros [x|]; cbn; ring).
    rewrite !Y. set (a := match dget (num_reactions s') DT with Some x => x | None => 0 end) in *. set (b := match dget (num_reactions s') TT with Some x => x | None => 0 end) in *.
    set (a' := match dget (num_reactions s) DT with Some x => x | None => 0 end) in *. set (b' := match dget (num_reactions s) TT with Some x => x | None => 0 end) in *.
    replace (a * k + (2.0 * (b * k) + 0)) with ((a + (2.0 * b + 0)) * k) by ring. rewrite R2. ring.
  - unfold power, times in *. cbn [strength]. rewrite !map_map. cbn [fst snd].
    assert (X : forall d : dict (list R), total (map (fun x => total (map (fun y => y * k) (snd x)) * total_energy m (fst x)) d) = total (map (fun p => total (snd p) * total_energy m (fst p)) d) * k).
    { induction d as [|p d IH]; cbn [map total]; [ring|]. rewrite IH. replace (total (map (fun y => y * k) (snd p))) with (total (snd p) * k); [ring|].
      clear. induction (snd p) as [|x l IH]; cbn [map total]; [ring|]. rewrite <- IH. ring. }
    now rewrite !X, R3.
Qed.

Lemma make_source_join' inside h tr fm arg side P meth s0 ws s : make_source m u inside h tr fm arg side None meth = Ok (s0, ws) ->
  normalise_fusion_power m s0 P = Ok s -> make_source m u inside h tr fm arg side (Some P) meth = Ok (s, ws).
Proof.
  unfold make_source. destruct (parse_source_type arg) as [types| |]; cbn [bind]; try discriminate.
  destruct (sample_space_2d inside (fm_lcfs fm) (fm_o fm) side) as [cs| |]; cbn [bind]; try discriminate.
  destruct (mapM (fun c => fm_psi_norm fm (fst (fst c), snd (fst c))) cs) as [psi| |]; cbn [bind]; try discriminate.
  destruct (mapM (read h (temp_prof tr)) psi) as [temps| |]; cbn [bind]; try discriminate.
  destruct (mapM (read h (d_prof tr)) psi) as [dd| |]; cbn [bind]; try discriminate.
  destruct (mapM (read h (t_prof tr)) psi) as [dt| |]; cbn [bind]; try discriminate.
  destruct (mapM (read h (he3_prof tr)) psi) as [dh| |]; cbn [bind]; try discriminate.
  match goal with |- context [add_reactions m u temps ?a ?b meth ?c types] => destruct (add_reactions m u temps a b meth c types) as [[[[st nr] nn] w]| |]; cbn [bind]; try discriminate end.
  intros E1 E2. injection E1 as <- <-. rewrite E2. reflexivity.
Qed.

Theorem make_rearranged_any inside inside' h tr fm fm' arg side side' P meth g cs cs' s ws :
  sample_space_2d inside (fm_lcfs fm) (fm_o fm) side = Ok cs -> sample_space_2d inside' (fm_lcfs fm') (fm_o fm') side' = Ok cs' ->
  Permutation (map (carry g 1) cs) cs' -> (forall p, fm_psi_norm fm' (g p) = fm_psi_norm fm p) ->
  make_source m u inside h tr fm arg side P meth = Ok (s, ws) ->
  exists s', make_source m u inside' h tr fm' arg side' P meth = Ok (s', ws) /\ rearranged (power m) g s s'.
Proof.
  intros Ec Ec' Pc Hp E. destruct P as [P|].
  - destruct (make_source_split m u _ _ _ _ _ _ _ _ _ _ E) as (s0 & E0 & En).
    destruct (make_perm_ok inside inside' h tr fm fm' arg side side' meth g cs cs' s0 ws Ec Ec' Pc Hp E0) as (s0' & E0').
    pose proof (make_rearranged inside inside' h tr fm fm' arg side side' meth g cs cs' s0 ws s0' ws Ec Ec' Pc Hp E0 E0') as Rr.
    assert (C : exists f, consistent s0 f) by (apply make_bare_ok in E0; destruct E0 as (_ & _ & _ & _ & _ & ps & dd & dt & dh & f & _ & _ & _ & _ & _ & C & _); eauto).
    assert (C' : exists f, consistent s0' f) by (apply make_bare_ok in E0'; destruct E0' as (_ & _ & _ & _ & _ & ps & dd & dt & dh & f & _ & _ & _ & _ & _ & C'' & _); eauto).
    destruct C as [f C]. destruct C' as [f' C']. destruct (normalise_consistent m s0 f P s C En) as (-> & Z & Nt).
    assert (Rr' := Rr). destruct Rr' as (Et & _ & _ & _ & _ & Ep).
    destruct (normalise_cases m s0' f' P C') as (_ & _ & D). rewrite Et, Ep in D. specialize (D Nt Z).
    exists (times (P / power m s0) s0'). split; [|now apply rearranged_times].
    exact (make_source_join' inside' h tr fm' arg side' P meth s0' ws _ E0' D).
  - destruct (make_perm_ok inside inside' h tr fm fm' arg side side' meth g cs cs' s ws Ec Ec' Pc Hp E) as (s' & E').
    exists s'. split; [exact E'|]. exact (make_rearranged inside inside' h tr fm fm' arg side side' meth g cs cs' s ws s' ws Ec Ec' Pc Hp E E').
Qed.
End S.
