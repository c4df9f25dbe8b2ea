(** Property theorems C06-C12 (TokamakNeutronSource). *)
From Coq Require Import String.
From Verif Require Import Base Reactions SpecReactions ReactionsProofs Profile Transport Space SpecSpace SpaceProofs P_Space
  Reactivity SpecReactivity ReactivityProofs P_Reactivity Source SpecSource SourceProofs.

(** C06: cell i of channel r holds n1 n2 / (1 + delta) * <sigma v>(T) * dV, everything taken at the
    cell's own psi_norm. *)
Theorem C06_strength_formula : forall m u inside h tr fm arg side meth s ws,
  make_source m u inside h tr fm arg side None meth = Ok (s, ws) ->
  parse_source_type arg = Ok (source_type s) /\
  sample_space_2d inside (fm_lcfs fm) (fm_o fm) side = Ok (cells s) /\
  length (temperature s) = length (cells s) /\
  forall r, In r (source_type s) -> exists st, dget (strength s) r = Some st /\ length st = length (cells s) /\
  forall i c, nth_error (cells s) i = Some c ->
    exists psi T d t h3 sv w a b products,
      fm_psi_norm fm (sx c, sz c) = Ok psi /\
      read h (temp_prof tr) psi = Ok T /\ read h (d_prof tr) psi = Ok d /\
      read h (t_prof tr) psi = Ok t /\ read h (he3_prof tr) psi = Ok h3 /\
      nth_error (temperature s) i = Some T /\
      reactivity m u [T] (IReact r) meth = Ok ([sv], w) /\
      equation (label r) = Some ([a; b], products) /\
      nth_error st i = Some (pair_density (fuel d t h3) a b * sv * svol c).
Proof.
  intros m u inside h tr fm arg side meth s ws E. pose proof E as E0.
  apply make_bare_ok in E. destruct E as (Ep & Es & _ & _ & _ & psi & dd & dt & dh & f & E1 & E2 & E3 & E4 & E5 & C & Hf).
  split; [exact Ep|]. split; [exact Es|].
  split; [apply mapM_Ok_length in E1, E2; rewrite E2; exact E1|].
  intros r Hr. destruct C as (N & C1 & _ & _ & L). exists (f r). rewrite C1. rewrite dget_dmap_in by exact Hr.
  split; [reflexivity|]. split; [now apply L|]. intros i c Hc.
  destruct (mapM_nth_error _ _ _ _ _ E1 Hc) as (p & Hp & Ep').
  destruct (mapM_nth_error _ _ _ _ _ E2 Hp) as (T & HT & ET).
  destruct (mapM_nth_error _ _ _ _ _ E3 Hp) as (d & Hd & Ed).
  destruct (mapM_nth_error _ _ _ _ _ E4 Hp) as (t & Ht & Et).
  destruct (mapM_nth_error _ _ _ _ _ E5 Hp) as (h3 & Hh & Eh).
  destruct (Hf r Hr) as (v & w & Dw & Ef).
  assert (Dw' := Dw). unfold density_weighted_reactivity in Dw'. cbn [parse_reaction bind] in Dw'.
  destruct (reactivity m u (temperature s) (IReact r) meth) as [[rv rw]| |] eqn:Er; cbn [bind fst snd] in Dw'; try discriminate.
  destruct (reactivity_elementwise m u _ _ _ _ _ _ _ Er HT) as (sv & w' & Hsv & Esv).
  set (ds := map2 (fun a bc => {| nd := a; nt := fst bc; nhe3 := snd bc |}) dd (combine dt dh)) in *.
  assert (Hds : nth_error ds i = Some {| nd := d; nt := t; nhe3 := h3 |}) by (apply dens_nth; assumption).
  assert (Lds : length ds = length (temperature s)).
  { apply mapM_Ok_length in E2, E3, E4, E5. unfold ds. rewrite map2_length, combine_length, E2, E3, E4, E5, !Nat.min_id. reflexivity. }
  destruct (C13_density_weighting m u (temperature s) ds (IReact r) r meth rv rw (names_react r) Lds Er) as (a & b & prods & out & Eq & Eo & _ & Hout).
  assert (out = v) by congruence. subst out.
  specialize (Hout i _ _ Hds Hsv). cbn [nd nt nhe3] in Hout.
  exists p, T, d, t, h3, sv, w', a, b, prods. repeat (split; [assumption|]).
  rewrite Ef. apply (map2_nth_error Rmult); [exact Hout|]. exact (map_nth_error snd i (cells s) Hc).
Qed.
Print Assumptions C06_strength_formula.

(** Non-negative densities, reactivities and radii give non-negative strengths. *)
Theorem C06_strengths_nonnegative : forall m u inside h tr fm arg side meth s ws, 0 < side ->
  make_source m u inside h tr fm arg side None meth = Ok (s, ws) ->
  (forall c, In c (cells s) -> 0 <= sx c) ->
  (forall p psi x, In p [d_prof tr; t_prof tr; he3_prof tr] -> read h p psi = Ok x -> 0 <= x) ->
  (forall T r v w, In r (source_type s) -> In T (temperature s) -> reactivity m u [T] (IReact r) meth = Ok ([v], w) -> 0 <= v) ->
  forall r st x, dget (strength s) r = Some st -> In x st -> 0 <= x.
Proof.
  intros m u inside h tr fm arg side meth s ws Hside E Hx Hd Hv r st x Hst Hin.
  destruct (C06_strength_formula _ _ _ _ _ _ _ _ _ _ _ E) as (_ & Es & _ & H).
  assert (Hr : In r (source_type s)).
  { apply make_bare_ok in E. destruct E as (_ & _ & _ & _ & _ & psi & dd & dt & dh & f & _ & _ & _ & _ & _ & C & _).
    destruct C as (_ & C1 & _). rewrite C1, dget_dmap in Hst. destruct (memb r (source_type s)) eqn:Q; [now apply memb_In|discriminate]. }
  destruct (H r Hr) as (st' & E1 & L & F). rewrite Hst in E1. injection E1 as <-.
  apply In_nth_error in Hin. destruct Hin as [i Hi].
  assert (exists c, nth_error (cells s) i = Some c) as [c Hc].
  { assert (i < length st)%nat by (apply nth_error_Some; congruence).
    destruct (nth_error (cells s) i) eqn:Q; [eauto|]. apply nth_error_None in Q. rewrite <- L in Q. lia. }
  destruct (F i c Hc) as (psi & T & d & t & h3 & sv & w & a & b & prods & P1 & P2 & P3 & P4 & P5 & P6 & P7 & P8 & P9).
  rewrite Hi in P9. injection P9 as ->.
  assert (0 <= d) by (eapply Hd; [|exact P3]; cbn; auto). assert (0 <= t) by (eapply Hd; [|exact P4]; cbn; auto). assert (0 <= h3) by (eapply Hd; [|exact P5]; cbn; auto).
  assert (0 <= sv) by (eapply Hv; eauto; eapply nth_error_In; eauto).
  destruct (sample_lattice inside _ _ side Hside _ Es c (nth_error_In _ _ Hc)) as (_ & _ & V).
  assert (0 <= svol c). { rewrite V. pose proof PI_RGT_0. specialize (Hx c (nth_error_In _ _ Hc)).
    apply Rmult_le_pos; [|nra]. apply Rmult_le_pos; [lra|exact Hx]. }
  assert (0 <= pair_density (fuel d t h3) a b).
  { unfold pair_density. assert (forall n, 0 <= fuel d t h3 n) by (intros []; cbn; lra).
    destruct (nuclide_eq_dec a b); (apply Rmult_le_pos; [apply Rmult_le_pos; auto|lra]). }
  apply Rmult_le_pos; [apply Rmult_le_pos|]; assumption.
Qed.
Print Assumptions C06_strengths_nonnegative.

(** The constructor succeeds on every physical input whose cell size leaves at least one cell. *)
Theorem C06_constructor_succeeds : forall m u inside h tr fm arg side meth cs,
  physical_masses m -> 0 < amu_kg u -> 0 < keV_J u -> valid_arg arg ->
  sample_space_2d inside (fm_lcfs fm) (fm_o fm) side = Ok cs -> cs <> [] ->
  (forall c, In c cs -> exists psi, fm_psi_norm fm (sx c, sz c) = Ok psi) ->
  (forall psi, exists T, read h (temp_prof tr) psi = Ok T /\ 0 < T <= 100) ->
  (forall p psi, In p [d_prof tr; t_prof tr; he3_prof tr] -> exists n, read h p psi = Ok n) ->
  exists s ws, make_source m u inside h tr fm arg side None meth = Ok (s, ws) /\ cells s = cs.
Proof.
  intros m u inside h tr fm arg side meth cs Hm Hu Hk Va Es Hc Hpsi HT Hp.
  destruct (proj1 (parse_source_type_spec arg) Va) as (types & Et & _ & _).
  assert (M : forall {A B} (f : A -> res B) l, (forall a, In a l -> exists b, f a = Ok b) -> exists bs, mapM f l = Ok bs).
  { intros A B f l. induction l as [|a l IH]; intro H; cbn; [eauto|]. destruct (H a (or_introl eq_refl)) as [b ->].
    destruct IH as [bs ->]; [intros; apply H; now right|]. cbn. eauto. }
  unfold make_source. rewrite Et. cbn [bind]. rewrite Es. cbn [bind].
  destruct (M _ _ (fun c => fm_psi_norm fm (fst (fst c), snd (fst c))) cs) as [psi E1]; [intros c H; now apply Hpsi|]. rewrite E1. cbn [bind].
  destruct (M _ _ (read h (temp_prof tr)) psi) as [temps E2]; [intros c _; destruct (HT c) as (T & E & _); eauto|]. rewrite E2. cbn [bind].
  destruct (M _ _ (read h (d_prof tr)) psi) as [dd E3]; [intros c _; apply Hp; cbn; auto|]. rewrite E3. cbn [bind].
  destruct (M _ _ (read h (t_prof tr)) psi) as [dt E4]; [intros c _; apply Hp; cbn; auto|]. rewrite E4. cbn [bind].
  destruct (M _ _ (read h (he3_prof tr)) psi) as [dh E5]; [intros c _; apply Hp; cbn; auto|]. rewrite E5. cbn [bind].
  assert (Tn : temps <> []).
  { apply mapM_Ok_length in E1, E2. intros ->. destruct cs; [congruence|]. cbn in *. congruence. }
  assert (Tr : forall T, In T temps -> 0 < T <= 100).
  { intros T Hi. apply mapM_Ok_Forall2 in E2. apply In_nth_error in Hi. destruct Hi as [i Hi].
    clear - E2 Hi HT. revert i Hi. induction E2 as [|a b l l' Hab _ IH]; intros [|i]; cbn; try discriminate.
    - intro Q; injection Q as ->. destruct (HT a) as (T' & ET & R). assert (T = T') by congruence. now subst.
    - apply IH. }
  match goal with |- context [add_reactions m u temps ?d ?v meth ?acc types] =>
    destruct (add_reactions_total m u Hm Hu Hk temps d v meth types Tn Tr acc) as [[[[st nr] nn] ws] Eo] end.
  rewrite Eo. cbn [bind]. eexists _, _. split; reflexivity.
Qed.
Print Assumptions C06_constructor_succeeds.

(** Cells larger than the plasma: no cell, and Bosch-Hale channels make the constructor raise. *)
Theorem C06_no_cells_rejected : forall m u inside h tr fm arg side P meth types r,
  parse_source_type arg = Ok types -> hd_error types = Some r -> fitted r -> meth = MBoschHale \/ meth = MAuto ->
  sample_space_2d inside (fm_lcfs fm) (fm_o fm) side = Ok [] ->
  make_source m u inside h tr fm arg side P meth = Err EValue.
Proof.
  intros m u inside h tr fm arg side P meth types r Et Hr Hf Hm Es. unfold make_source. rewrite Et, Es. cbn [bind mapM map combine map2].
  destruct types as [|r' l]; [discriminate|]. injection Hr as ->. cbn [add_reactions add_reaction].
  unfold density_weighted_reactivity. cbn [parse_reaction bind]. rewrite (C14_empty_array_rejected m u r meth Hf Hm). reflexivity.
Qed.
Print Assumptions C06_no_cells_rejected.

(** C07 *)
Theorem C07_rates_agree : forall m u s, reachable m u s ->
  map fst (strength s) = source_type s /\ map fst (num_reactions s) = source_type s /\ map fst (num_neutrons_ps s) = source_type s /\
  NoDup (source_type s) /\
  (forall r, In r (source_type s) -> exists st,
     dget (strength s) r = Some st /\ length st = length (cells s) /\
     dget (num_reactions s) r = Some (total st) /\
     dget (num_neutrons_ps s) r = Some (INR (neutrons r) * total st)) /\
  (forall r, ~ In r (source_type s) -> dget (strength s) r = None /\ dget (num_reactions s) r = None /\ dget (num_neutrons_ps s) r = None) /\
  source_rate s = total (map (fun p => INR (neutrons (fst p)) * total (snd p)) (strength s)).
Proof.
  intros m u s H. destruct (reachable_consistent m u s H) as (f & N & E1 & E2 & E3 & L).
  rewrite E1, E2, E3, !map_fst_dmap. repeat (split; [reflexivity || exact N|]). split; [|split].
  - intros r Hr. exists (f r). rewrite !dget_dmap_in by exact Hr. split; [reflexivity|]. split; [now apply L|].
    rewrite pysum_total. split; [reflexivity|]. rewrite neutrons_label. f_equal. ring.
  - intros r Hr. rewrite !dget_dmap. destruct (memb r (source_type s)) eqn:Q; [apply memb_In in Q; contradiction|]. auto.
  - unfold source_rate. rewrite E3, map_snd_dmap, pysum_total. unfold dmap. rewrite map_map. cbn [fst snd]. f_equal.
    apply map_ext. intro r. rewrite neutrons_label, pysum_total. ring.
Qed.
Print Assumptions C07_rates_agree.

(** C08 *)
Theorem C08_power_reaches_target : forall m u s P s', reachable m u s ->
  normalise_fusion_power m s P = Ok s' -> calculate_total_fusion_power m s' = Ok P /\ power m s' = P.
Proof.
  intros m u s P s' H E. destruct (reachable_consistent m u s H) as (f & C).
  destruct (normalise_consistent m s f P s' C E) as (-> & Z & _).
  rewrite (power_ok m _ _ (times_consistent s f _ C)), (power_times m s f _ C).
  assert (power m s * (P / power m s) = P) as -> by (field; exact Z). auto.
Qed.
Print Assumptions C08_power_reaches_target.

Theorem C08_normalise_succeeds : forall m u s P, reachable m u s -> calculate_total_fusion_power m s = Ok (power m s) /\
  (power m s <> 0 -> exists s', normalise_fusion_power m s P = Ok s').
Proof.
  intros m u s P H. destruct (reachable_consistent m u s H) as (f & C). split; [exact (power_ok m s f C)|]. intro Z.
  destruct (normalise_cases m s f P C) as (A & B & D). exists (times (P / power m s) s). apply D; [|exact Z].
  intro Q. apply Z. rewrite (power_eq m s f C), Q. reflexivity.
Qed.
Print Assumptions C08_normalise_succeeds.

Theorem C08_constructor_target : forall m u inside h tr fm arg side P meth s ws,
  make_source m u inside h tr fm arg side (Some P) meth = Ok (s, ws) -> calculate_total_fusion_power m s = Ok P.
Proof.
  intros m u inside h tr fm arg side P meth s ws E. apply make_source_split in E. destruct E as (s0 & E0 & En).
  apply (C08_power_reaches_target m u s0 P s); [|exact En].
  exists inside, h, tr, fm, arg, side, None, meth, s0, ws, []. auto.
Qed.
Print Assumptions C08_constructor_target.

(** C09 *)
Theorem C09_only_rescales : forall m u s Ps, reachable m u s -> power m s <> 0 -> Ps <> [] -> (forall P, In P Ps -> P <> 0) ->
  normalise_all m s Ps = Ok (times (last Ps 0 / power m s) s).
Proof.
  intros m u s Ps H Z Hn HP. destruct (reachable_consistent m u s H) as (f & C).
  rewrite (normalise_all_ok m Ps s f C); [|intro Q; apply Z; rewrite (power_eq m s f C), Q; reflexivity|exact Z|exact HP].
  destruct Ps as [|P Ps]; [congruence|]. now rewrite (last_default Ps P (power m s) 0).
Qed.
Print Assumptions C09_only_rescales.

(** Any two histories with the same last target end in the same source. *)
Theorem C09_last_target_decides : forall m u s Ps Qs P s1 s2, reachable m u s ->
  (forall Q, In Q (Ps ++ Qs) -> Q <> 0) -> P <> 0 ->
  normalise_all m s (Ps ++ [P]) = Ok s1 -> normalise_all m s (Qs ++ [P]) = Ok s2 -> s1 = s2.
Proof.
  intros m u s Ps Qs P s1 s2 H HQ HP E1 E2.
  destruct (reachable_consistent m u s H) as (f & C).
  assert (Z : power m s <> 0).
  { destruct (Ps ++ [P]) as [|p l] eqn:Q; [destruct Ps; discriminate|]. cbn in E1.
    destruct (normalise_fusion_power m s p) as [s'| |] eqn:En; try discriminate.
    now destruct (normalise_consistent m s f p s' C En) as (_ & Z & _). }
  assert (L : forall l, last (l ++ [P]) 0 = P) by (intro l; apply last_last).
  rewrite (C09_only_rescales m u s (Ps ++ [P]) H Z) in E1; [|destruct Ps; discriminate|].
  2:{ intros q Hq. apply in_app_or in Hq. destruct Hq as [Hq|[<-|[]]]; [apply HQ, in_or_app; now left|exact HP]. }
  rewrite (C09_only_rescales m u s (Qs ++ [P]) H Z) in E2; [|destruct Qs; discriminate|].
  2:{ intros q Hq. apply in_app_or in Hq. destruct Hq as [Hq|[<-|[]]]; [apply HQ, in_or_app; now right|exact HP]. }
  rewrite L in *. congruence.
Qed.
Print Assumptions C09_last_target_decides.

(** Whatever is done, everything but strengths and rates stays, and shares are preserved: each strength is
    one common factor times its former value. *)
Theorem C09_shares_preserved : forall m u s Ps s', reachable m u s -> normalise_all m s Ps = Ok s' ->
  cells s' = cells s /\ temperature s' = temperature s /\ source_type s' = source_type s /\ cell_side s' = cell_side s /\
  src_map s' = src_map s /\ src_transport s' = src_transport s /\
  exists k, forall r st, dget (strength s) r = Some st -> dget (strength s') r = Some (map (fun x => x * k) st).
Proof.
  intros m u s Ps s' H E. destruct (reachable_consistent m u s H) as (f & C).
  destruct (normalise_all_consistent m Ps s f s' C E) as [k ->]. repeat (split; [reflexivity|]). exists k. cbn [times strength].
  intros r st. generalize (strength s) as d. induction d as [|[r' v] d IH]; cbn; [discriminate|].
  destruct (reaction_eqb r r'); [intro Q; injection Q as ->; reflexivity|exact IH].
Qed.
Print Assumptions C09_shares_preserved.

(** C10 *)
Theorem C10_tritium_rate : forall m u s, reachable m u s ->
  source_T_rate s = total (map (fun p => INR (tritons (fst p)) * snd p) (num_reactions s)).
Proof.
  intros m u s H. destruct (reachable_consistent m u s H) as (f & N & E1 & E2 & E3 & L).
  unfold source_T_rate, dget0. rewrite E2, !dget_dmap. unfold dmap. rewrite map_map. cbn [fst snd].
  rewrite (T_rate_sum (fun r => pysum (f r)) _ N), !pysum_cons, pysum_nil.
  destruct (memb DT (source_type s)), (memb TT (source_type s)); lra.
Qed.
Print Assumptions C10_tritium_rate.

Theorem C10_special_cases : forall m u s, reachable m u s ->
  ((forall r, In r (source_type s) -> r = TT) -> source_T_rate s = source_rate s) /\
  ((forall r, In r (source_type s) -> r = DT) -> source_T_rate s = source_rate s) /\
  ((forall r, In r (source_type s) -> r <> DT /\ r <> TT) -> source_T_rate s = 0) /\
  ((forall r st x, dget (strength s) r = Some st -> In x st -> 0 <= x) -> 0 <= source_T_rate s <= source_rate s).
Proof.
  intros m u s H. rewrite (C10_tritium_rate m u s H). destruct (reachable_consistent m u s H) as (f & N & E1 & E2 & E3 & L).
  unfold source_rate. rewrite E2, E3, map_snd_dmap, pysum_total. unfold dmap. rewrite map_map. cbn [fst snd].
  assert (Z : forall l : list reaction, (forall r, In r l -> r <> DT /\ r <> TT) -> total (map (fun r => INR (tritons r) * pysum (f r)) l) = 0).
  { induction l as [|r l IH]; intro Hl; [reflexivity|]. cbn [map total]. rewrite IH by (intros; apply Hl; now right).
    destruct (Hl r (or_introl eq_refl)) as [A B]. destruct r; try congruence; change (INR (tritons _)) with 0; ring. }
  split; [|split; [|split]].
  - intro A. f_equal. apply map_ext_in. intros r Hr. rewrite (A r Hr). change (tritons TT) with 2%nat. change (num_neutrons TT) with 2%nat. ring.
  - intro A. f_equal. apply map_ext_in. intros r Hr. rewrite (A r Hr). change (tritons DT) with 1%nat. change (num_neutrons DT) with 1%nat. ring.
  - apply Z.
  - intro Hp. assert (P : forall r, In r (source_type s) -> 0 <= pysum (f r)).
    { intros r Hr. apply pysum_nonneg. apply Forall_forall. intros x Hx. apply (Hp r (f r)); [|exact Hx]. rewrite E1. now apply dget_dmap_in. }
    split.
    + rewrite <- pysum_total. apply pysum_nonneg. apply Forall_forall. intros x Hx. apply in_map_iff in Hx. destruct Hx as (r & <- & Hr).
      apply Rmult_le_pos; [apply pos_INR|now apply P].
    + apply total_le. intros r Hr. rewrite Rmult_comm. apply Rmult_le_compat_l; [now apply P|]. apply le_INR, tritons_le_neutrons.
Qed.
Print Assumptions C10_special_cases.

(** C11 *)
Theorem C11_zero_power_never_finite : forall m u s P, reachable m u s -> power m s = 0 ->
  (source_type s = [] -> normalise_fusion_power m s P = Err EZeroDivision) /\
  (source_type s <> [] -> normalise_fusion_power m s P = NonFinite).
Proof.
  intros m u s P H Z. destruct (reachable_consistent m u s H) as (f & C). destruct (normalise_cases m s f P C) as (A & B & _). auto.
Qed.
Print Assumptions C11_zero_power_never_finite.

(** In particular a source normalised to zero power cannot be normalised again. *)
Theorem C11_zero_target_is_final : forall m u s P s', reachable m u s -> normalise_fusion_power m s 0 = Ok s' ->
  normalise_fusion_power m s' P = NonFinite.
Proof.
  intros m u s P s' H E. destruct (reachable_consistent m u s H) as (f & C).
  pose proof (C08_power_reaches_target m u s 0 s' H E) as [_ Z].
  destruct (normalise_consistent m s f 0 s' C E) as (-> & _ & T).
  destruct (normalise_cases m _ _ P (times_consistent s f (0 / power m s) C)) as (_ & B & _). apply B; auto.
Qed.
Print Assumptions C11_zero_target_is_final.

(** C12 *)
Theorem C12_plot_selection : forall s l,
  let available := filter (fun r => memb r (source_type s)) l in
  let missing := filter (fun r => negb (memb r (source_type s))) l in
  (available <> [] -> plot s (Some l) = (Ok available, missing)) /\
  (available = [] -> plot s (Some l) = (Err ETNS, missing)) /\
  plot s None = (Ok (source_type s), []).
Proof.
  intros s l. cbv zeta.
  assert (F : forall l a b, fold_left (fun acc r => if memb r (source_type s) then (fst acc ++ [r], snd acc) else (fst acc, snd acc ++ [r])) l (a, b)
    = (a ++ filter (fun r => memb r (source_type s)) l, b ++ filter (fun r => negb (memb r (source_type s))) l)).
  { clear l. induction l as [|r l IH]; intros a b; cbn [fold_left filter]; [now rewrite !app_nil_r|].
    destruct (memb r (source_type s)); cbn [negb fst snd]; rewrite IH, <- app_assoc; reflexivity. }
  unfold plot. rewrite F. cbn [app].
  destruct (filter (fun r => memb r (source_type s)) l); split; [congruence|split; auto|auto|split; [discriminate|auto]].
Qed.
Print Assumptions C12_plot_selection.

(** A concrete D-T + D-D source on the square plasma of P_Space: isothermal at 10 keV, uniform densities. *)
Definition ex_heap : heap := [PPed 10 10 10 1 1 (1/2) 1; PPed 1e20 1e20 1e20 1 1 (1/2) 1].
Definition ex_transport : transport := {| d_prof := 1%nat; t_prof := 1%nat; he3_prof := 1%nat; temp_prof := 0%nat; rho_prof := [] |}.
Definition ex_map : flux_map := {| fm_lcfs := square_lcfs; fm_o := (2, 0); fm_psi_norm := fun p => Ok (Rabs (fst p - 2) / 2) |}.
Lemma ex_read p psi : (p <= 1)%nat -> read ex_heap p psi = Ok (if (p =? 0)%nat then 10 else 1e20).
Proof.
  assert (K : forall a, value (PPed a a a 1 1 (1/2) 1) psi = Ok a).
  { intro a. unfold value. destruct (clip_range 0 1 psi); [lra|]. set (rho := clip 0 1 psi) in *.
    destruct (Rltb_spec rho (1/2)).
    - rewrite np_div_ok by lra. cbn [bind].
      assert (Q : exists q, np_pow (rho / (1/2)) 1 = Ok q).
      { destruct (Req_dec rho 0) as [->|Z]; [exists 0; rewrite <- (np_pow_0 1) by lra; f_equal; lra|].
        eexists. apply np_pow_pos. lra. }
      destruct Q as [q ->]. cbn [bind].
      assert (Q : exists t, np_pow (clip 0 1 (1 - q)) 1 = Ok t).
      { destruct (clip_range 0 1 (1 - q)); [lra|]. destruct (Req_dec (clip 0 1 (1 - q)) 0) as [->|Z]; [exists 0; apply np_pow_0; lra|].
        eexists. apply np_pow_pos. lra. }
      destruct Q as [t ->]. cbn [bind]. f_equal. ring.
    - destruct (Reqb_spec (1/2) 1); [lra|]. rewrite np_div_ok by lra. cbn [bind]. f_equal. field. }
  destruct p as [|[|p]]; intro H; [apply K|apply K|lia].
Qed.
Example C06_C12_example : exists s ws,
  make_source nominal_masses nominal_units mpl_inside ex_heap ex_transport ex_map (SList [IStr "D-T"%string; IStr "D-D"%string]) (1/2) None MAuto = Ok (s, ws) /\
  source_type s = [DT; DDn; DDp] /\ reachable nominal_masses nominal_units s /\ power nominal_masses s <> 0 /\
  (forall r st x, In r (source_type s) -> dget (strength s) r = Some st -> In x st -> 0 < x) /\
  cells s <> [] /\ (forall T, In T (temperature s) -> T = 10) /\ (forall c, In c (cells s) -> 1 <= sx c).
Proof.
  destruct C16_C17_example as (Hm & Hu & Hk & _).
  destruct C28_C31_example as (Ho & cs & Es & c & Hc & _).
  destruct (C06_constructor_succeeds nominal_masses nominal_units mpl_inside ex_heap ex_transport ex_map (SList [IStr "D-T"%string; IStr "D-D"%string])
    (1/2) MAuto cs Hm Hu Hk) as (s & ws & E & Ec).
  - intros x [<-|[<-|[]]]; eexists; constructor; cbn; auto.
  - exact Es.
  - intros ->. contradiction.
  - intros c0 _. eexists; reflexivity.
  - intro psi. exists 10. split; [apply (ex_read 0); lia|lra].
  - intros p psi Hp. assert (p = 1%nat) as -> by (destruct Hp as [<-|[<-|[<-|[]]]]; reflexivity). exists 1e20. apply (ex_read 1). lia.
  - exists s, ws. split; [exact E|].
    destruct (C06_strength_formula _ _ _ _ _ _ _ _ _ _ _ E) as (Ep & _ & _ & F).
    assert (St : source_type s = [DT; DDn; DDp]) by
      (assert (Q : parse_source_type (SList [IStr "D-T"%string; IStr "D-D"%string]) = Ok [DT; DDn; DDp]) by reflexivity; rewrite Q in Ep; injection Ep; auto).
    split; [exact St|].
    assert (Rc : reachable nominal_masses nominal_units s).
    { exists mpl_inside, ex_heap, ex_transport, ex_map, (SList [IStr "D-T"%string; IStr "D-D"%string]), (1/2), None, MAuto, s, ws, []. auto. }
    split; [exact Rc|].
    assert (Ge : forall c, In c (cells s) -> 1 <= sx c).
    { intros ci Hci. rewrite Ec in Hci. destruct (sample_lattice mpl_inside _ _ (1/2) ltac:(lra) _ Es ci Hci) as (In_ & _ & V).
      destruct (mpl_inside_box _ _ In_) as ((v0 & Hv0 & Lx) & _). cbn [fst] in Lx.
      assert (1 <= fst v0) by (destruct Hv0 as [<-|[<-|[<-|[<-|[<-|[]]]]]]; cbn; lra). lra. }
    assert (T10 : forall T, In T (temperature s) -> T = 10).
    { intros T HT. apply make_bare_ok in E. destruct E as (_ & _ & _ & _ & _ & psi & dd & dt & dh & f & _ & E2 & _). apply mapM_Ok_Forall2 in E2.
      clear -E2 HT. induction E2 as [|a b la lb Hab _ IH]; [contradiction|]. destruct HT as [<-|HT]; [|now apply IH].
      change (temp_prof ex_transport) with 0%nat in Hab. rewrite ex_read in Hab by lia. cbn [Nat.eqb] in Hab. congruence. }
    (* every strength is positive, so is the power *)
    assert (Pos : forall r st x, In r (source_type s) -> dget (strength s) r = Some st -> In x st -> 0 < x).
    { intros r st x Hr Hst Hx. destruct (F r Hr) as (st' & E1 & L & G). rewrite Hst in E1. injection E1 as <-.
      apply In_nth_error in Hx. destruct Hx as [i Hi].
      destruct (nth_error (cells s) i) as [ci|] eqn:Hci.
      2:{ apply nth_error_None in Hci. rewrite <- L in Hci. apply nth_error_None in Hci. congruence. }
      destruct (G i ci Hci) as (psi & T & d & t & h3 & sv & w & a & b & prods & P1 & P2 & P3 & P4 & P5 & P6 & P7 & P8 & P9).
      rewrite Hi in P9. injection P9 as ->.
      cbn [temp_prof d_prof t_prof he3_prof ex_transport] in *.
      rewrite (ex_read 0) in P2 by lia. rewrite (ex_read 1) in P3, P4, P5 by lia. cbn [Nat.eqb] in *.
      injection P2 as <-. assert (d = 1e20) by congruence. assert (t = 1e20) by congruence. assert (h3 = 1e20) by congruence. subst d t h3.
      destruct (reactivity_total nominal_masses nominal_units Hm Hu Hk [10] r MAuto) as (v & w' & Ev & Pv); [discriminate|intros T [<-|[]]; lra|].
      rewrite P7 in Ev. injection Ev as <- <-. assert (Hsv := Forall_inv Pv). cbv beta in Hsv.
      rewrite Ec in Hci. apply nth_error_In in Hci.
      destruct (sample_lattice mpl_inside _ _ (1/2) ltac:(lra) _ Es ci Hci) as (In_ & _ & V).
      destruct (mpl_inside_box _ _ In_) as ((v0 & Hv0 & Lx) & _). cbn [fst] in Lx.
      assert (1 <= fst v0) by (destruct Hv0 as [<-|[<-|[<-|[<-|[<-|[]]]]]]; cbn; lra).
      assert (0 < svol ci). { rewrite V. pose proof PI_RGT_0. apply Rmult_lt_0_compat; [|lra]. apply Rmult_lt_0_compat; lra. }
      apply Rmult_lt_0_compat; [|assumption]. apply Rmult_lt_0_compat; [|assumption].
      destruct r; vm_compute in P8; injection P8 as <- <- _; unfold pair_density; cbn [fuel]; destruct (nuclide_eq_dec _ _); lra. }
    split; [|split; [exact Pos|]; split; [rewrite Ec; intros ->; contradiction|]; split; [exact T10|exact Ge]].
    destruct (reachable_consistent _ _ _ Rc) as (f & C). rewrite (power_eq nominal_masses s f C). destruct C as (_ & C1 & _ & _ & Lf).
    assert (Pf : forall r, In r (source_type s) -> 0 < pysum (f r)).
    { intros r Hr. assert (G : dget (strength s) r = Some (f r)) by (rewrite C1; now apply dget_dmap_in).
      specialize (Lf r Hr). rewrite Ec in Lf. destruct (f r) as [|x l] eqn:Q; [destruct cs; [contradiction|discriminate]|].
      apply pysum_pos_ex.
      - apply Forall_forall. intros y Hy. left. eapply (Pos r); eauto.
      - left. eapply (Pos r); eauto. now left. }
    rewrite St in *. cbn [map]. rewrite !pysum_cons, pysum_nil.
    pose proof (Pf DT ltac:(cbn; auto)). pose proof (Pf DDn ltac:(cbn; auto)). pose proof (Pf DDp ltac:(cbn; auto)).
    assert (0 < total_energy nominal_masses DT) by (cbn [total_energy]; unfold E_DT; cbn [nominal_masses mD mT mHe mHe3 mn mp me amu_J]; lra).
    assert (0 < total_energy nominal_masses DDn) by (cbn [total_energy]; unfold E_DD_HE3N; cbn [nominal_masses mD mT mHe mHe3 mn mp me amu_J]; lra).
    assert (0 < total_energy nominal_masses DDp) by (cbn [total_energy]; unfold E_DD_TP; cbn [nominal_masses mD mT mHe mHe3 mn mp me amu_J]; lra).
    nra.
Qed.
