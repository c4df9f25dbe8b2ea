(** Property theorems C85 (the totals converge to volume integrals of the emission). *)
From Coq Require Import Reals Lra Lia ZArith List Bool String.
From Coquelicot Require Import Coquelicot.
From Verif Require Import Base Reactions SpecReactions ReactionsProofs P_Reactions Reactivity SpecReactivity ReactivityProofs P_Reactivity Profile Transport Space SpaceProofs SpecSpace P_Space Source SpecSource SourceProofs P_Source
  Geometry GeometryProofs SpecGeometry P_Geometry SpecConvex ConvexProofs SpecGrid GridProofs GridProofs2 GridConvex P_Grid SpecIntegral IntegralProofs IntegralProofs2 IntegralProofs3.
Import ListNotations.
Open Scope R_scope.

(** The integral over the plasma volume exists, and is unique. *)
Theorem C85_integral_exists : forall X Zlo Zhi f s l, goes_round s l -> (forall v, In v l -> within X Zlo Zhi (fst v) (snd v)) -> uniformly_continuous X Zlo Zhi f ->
  exists I, volume_integral X Zlo Zhi f s l I /\ forall I', volume_integral X Zlo Zhi f s l I' -> I' = I.
Proof.
  intros X Zlo Zhi f s l Hs Hb Hf. pose proof Hs as (L & _). pose proof (loop_nonempty l L) as Ne.
  assert (P : 0 <= X /\ Zlo <= Zhi) by (destruct L as (p & r & -> & _); destruct (Hb p (or_introl eq_refl)); lra). destruct P as [PX PZ].
  destruct (unif_bounded X Zlo Zhi PX PZ f Hf) as (F & PF & HF).
  exists (IZR s * edge_sum (Iedge (gt X Zlo Zhi f)) l). split.
  - exists (Gh (gt X Zlo Zhi f)), (edge_sum (Iedge (gt X Zlo Zhi f)) l). split; [|split; [|reflexivity]].
    + intros x z W. now apply (G_ok X Zlo Zhi PX PZ f Hf F PF HF).
    + now apply (path_ok X Zlo Zhi PX PZ f Hf F PF HF).
  - intros I' (G & J & HG & HJ & ->). f_equal. apply (path_unique X Zlo Zhi PX PZ f Hf F PF HF G l J); [|exact Hb|exact HJ]. now apply G_unique.
Qed.
Print Assumptions C85_integral_exists.

(** As the cells shrink, the sum over the cells of a continuous function times the cell volume tends to its integral over the plasma volume. *)
Theorem C85_cells_converge : forall X Zlo Zhi f s l I, goes_round s l -> (forall v, In v l -> within X Zlo Zhi (fst v) (snd v)) -> uniformly_continuous X Zlo Zhi f ->
  volume_integral X Zlo Zhi f s l I -> forall eps, 0 < eps ->
  exists h0, 0 < h0 /\ forall o h ss, 0 < h <= h0 -> sample_space_2d mpl_inside l o h = Ok ss -> Rabs (sum_over_cells f ss - I) < eps.
Proof.
  intros X Zlo Zhi f s l I Hs Hb Hf HI eps He. pose proof Hs as (L & S1 & ex & We).
  assert (P : 0 <= X /\ Zlo <= Zhi) by (destruct L as (p & r & -> & _); destruct (Hb p (or_introl eq_refl)); lra). destruct P as [PX PZ].
  destruct (unif_bounded X Zlo Zhi PX PZ f Hf) as (F & PF & HF). set (C := rate_coef X Zlo Zhi F l ex). assert (PC : 0 <= C) by now apply rate_coef_pos.
  set (e := eps / (4 * (C + 1))). assert (Pe : 0 < e) by (apply Rdiv_lt_0_compat; lra). assert (Ee : (C + 1) * e = eps / 4) by (unfold e; field; lra).
  destruct (gt_unif X Zlo Zhi PX PZ f Hf F PF HF e Pe) as (d & Pd & K).
  exists (Rmin 1 (Rmin d e)). split; [repeat apply Rmin_glb_lt; lra|]. intros o h ss [Hh Hm] E.
  assert (H1 : h <= 1) by (eapply Rle_trans; [exact Hm|apply Rmin_l]). assert (H2 : h <= d) by (eapply Rle_trans; [exact Hm|eapply Rle_trans; [apply Rmin_r|apply Rmin_l]]). assert (H3 : h <= e) by (eapply Rle_trans; [exact Hm|eapply Rle_trans; [apply Rmin_r|apply Rmin_r]]).
  eapply Rle_lt_trans; [apply (total_near X Zlo Zhi PX PZ f Hf F PF HF l s ex (conj L (conj S1 We)) Hb I o h ss e HI (conj Hh H1) E)|].
  - intros. left. apply K; lra.
  - fold C. assert (h * C <= e * C) by (apply Rmult_le_compat_r; lra). lra.
Qed.
Print Assumptions C85_cells_converge.

(** If moreover f changes by at most L per metre, the error is at most a constant times the side of the cells. *)
Theorem C85_first_order : forall X Zlo Zhi f L s l I, goes_round s l -> (forall v, In v l -> within X Zlo Zhi (fst v) (snd v)) -> changes_at_most L X Zlo Zhi f ->
  volume_integral X Zlo Zhi f s l I ->
  exists C, forall o h ss, 0 < h <= 1 -> sample_space_2d mpl_inside l o h = Ok ss -> Rabs (sum_over_cells f ss - I) <= C * h.
Proof.
  intros X Zlo Zhi f L s l I Hs Hb HL HI. pose proof Hs as (Lo & S1 & ex & We). pose proof PI_RGT_0 as Pp.
  assert (P : 0 <= X /\ Zlo <= Zhi) by (destruct Lo as (p & r & -> & _); destruct (Hb p (or_introl eq_refl)); lra). destruct P as [PX PZ].
  set (L1 := Rabs L). assert (PL : 0 <= L1) by apply Rabs_pos.
  assert (HL1 : forall x z x' z', within X Zlo Zhi x z -> within X Zlo Zhi x' z' -> Rabs (f x z - f x' z') <= L1 * (Rabs (x - x') + Rabs (z - z'))).
  { intros x z x' z' W W'. eapply Rle_trans; [now apply HL|]. apply Rmult_le_compat_r; [pose proof (Rabs_pos (x - x')); pose proof (Rabs_pos (z - z')); lra|apply Rle_abs]. }
  assert (Hf : uniformly_continuous X Zlo Zhi f).
  { intros eps He. exists (eps / (2 * (L1 + 1))). assert (Pe : 0 < eps / (2 * (L1 + 1))) by (apply Rdiv_lt_0_compat; lra). split; [exact Pe|]. intros x z x' z' W W' A B. eapply Rle_lt_trans; [now apply HL1|].
    set (d := eps / (2 * (L1 + 1))) in *. assert (Q : (L1 + 1) * (2 * d) = eps) by (unfold d; field; lra). assert (L1 * (Rabs (x - x') + Rabs (z - z')) <= L1 * (2 * d)) by (apply Rmult_le_compat_l; lra). lra. }
  destruct (unif_bounded X Zlo Zhi PX PZ f Hf) as (F & PF & HF). set (C := rate_coef X Zlo Zhi F l ex). assert (PC : 0 <= C) by now apply rate_coef_pos.
  set (k := 2 * PI * (X * L1 + F)). exists ((1 + k) * C). intros o h ss [Hh H1] E.
  replace ((1 + k) * C * h) with ((h + k * h) * C) by ring. apply (total_near X Zlo Zhi PX PZ f Hf F PF HF l s ex (conj Lo (conj S1 We)) Hb I o h ss (k * h) HI (conj Hh H1) E).
  intros x z x' z' A B. eapply Rle_trans; [apply (gt_mod X Zlo Zhi PX PZ f F HF x z x' z' (L1 * h))|].
  - eapply Rle_trans; [apply HL1; now apply cl_in|]. apply Rmult_le_compat_l; [exact PL|]. pose proof (clamp_near 0 X x x'). pose proof (clamp_near Zlo Zhi z z'). lra.
  - unfold k. rewrite !Rmult_assoc. apply Rmult_le_compat_l; [lra|]. apply Rmult_le_compat_l; [lra|]. assert (F * Rabs (x - x') <= F * h) by (apply Rmult_le_compat_l; lra). lra.
Qed.
Print Assumptions C85_first_order.

(** For a uniform emission k the integral is k times the plasma volume the flux surface reports. *)
Theorem C85_uniform : forall X Zlo Zhi k s l I V, goes_round s l -> (forall v, In v l -> within X Zlo Zhi (fst v) (snd v)) ->
  volume_integral X Zlo Zhi (fun _ _ => k) s l I -> volume (SClosed l) = Ok V -> I = k * V.
Proof.
  intros X Zlo Zhi k s l I V Hs Hb HI EV. pose proof Hs as (L & S1 & ex & W).
  assert (Hf : uniformly_continuous X Zlo Zhi (fun _ _ => k)) by (intros eps He; exists 1; split; [lra|]; intros; replace (k - k) with 0 by ring; rewrite Rabs_R0; exact He).
  assert (Si : simple_but ex l) by (split; [exact L|]; destruct S1 as [->| ->]; [left|right]; exact W).
  destruct (area (SClosed l)) as [A| |] eqn:EA; [|cbn [area] in EA; rewrite (area_loop l L) in EA; discriminate..].
  destruct (Req_dec I (k * V)) as [|N]; [assumption|]. exfalso. set (eps := Rabs (I - k * V) / 4). assert (Pe : 0 < eps) by (apply Rdiv_lt_0_compat; [apply Rabs_pos_lt; lra|lra]).
  set (e2 := eps / (Rabs k + 1)). pose proof (Rabs_pos k) as Pk. assert (Pe2 : 0 < e2) by (apply Rdiv_lt_0_compat; lra).
  destruct (C85_cells_converge X Zlo Zhi _ s l I Hs Hb Hf HI eps Pe) as (h1 & P1 & K1). destruct (C84_converges ex l A V e2 Si (fun v Hv => proj1 (proj1 (Hb v Hv))) EA EV Pe2) as (h2 & P2 & K2).
  set (h := Rmin h1 h2). assert (Ph : 0 < h) by now apply Rmin_glb_lt.
  destruct (proj2 (C28_total mpl_inside l (0, 0) h Ph) (loop_nonempty l L)) as [ss E].
  specialize (K1 (0, 0) h ss (conj Ph (Rmin_l _ _)) E). destruct (K2 (0, 0) h ss (conj Ph (Rmin_r _ _)) E) as [_ K3].
  assert (Q : sum_over_cells (fun _ _ => k) ss = k * total_volume ss) by (clear; induction ss as [|c ss IH]; [cbn; ring|]; cbn [sum_over_cells total_volume fold_right]; change (k * svol c + sum_over_cells (fun _ _ => k) ss = k * (svol c + total_volume ss)); rewrite IH; ring).
  rewrite Q in K1. assert (K4 : Rabs (k * total_volume ss - k * V) < eps).
  { rewrite <- Rmult_minus_distr_l, Rabs_mult. apply Rle_lt_trans with (Rabs k * e2); [apply Rmult_le_compat_l; lra|]. assert ((Rabs k + 1) * e2 = eps) by (unfold e2; field; lra). lra. }
  assert (Rabs (I - k * V) < 2 * eps).
  { replace (I - k * V) with (- (k * total_volume ss - I) + (k * total_volume ss - k * V)) by ring. eapply Rle_lt_trans; [apply Rabs_triang|]. rewrite Rabs_Ropp. lra. }
  unfold eps in *. lra.
Qed.
Print Assumptions C85_uniform.

(** ** The source *)
Lemma strengths_sum m u h tr fm arg side meth s ws r rate : 0 < side -> make_source m u mpl_inside h tr fm arg side None meth = Ok (s, ws) -> In r (source_type s) -> emission m u h tr fm meth r rate ->
  exists st, dget (strength s) r = Some st /\ total st = sum_over_cells rate (Source.cells s).
Proof.
  intros Hs E Hr He. destruct (C06_strength_formula _ _ _ _ _ _ _ _ _ _ _ E) as (_ & Es & _ & H). destruct (H r Hr) as (st & Est & Ln & F). exists st. split; [exact Est|].
  assert (G : forall i c, nth_error (Source.cells s) i = Some c -> nth_error st i = Some (rate (sx c) (sz c) * svol c)).
  { intros i c Hc. destruct (F i c Hc) as (psi & T & d & t & h3 & sv & w & a & b & prods & P1 & P2 & P3 & P4 & P5 & _ & P7 & P8 & P9). rewrite P9. do 2 f_equal. symmetry.
    destruct (sample_lattice mpl_inside _ _ side Hs _ Es c (nth_error_In _ _ Hc)) as (In_ & _). exact (He _ _ _ _ _ _ _ _ _ _ _ _ In_ P1 P2 P3 P4 P5 P7 P8). }
  clear -Ln G. revert st Ln G. induction (Source.cells s) as [|c cs IH]; intros st Ln G; [destruct st; [reflexivity|discriminate]|].
  destruct st as [|x st]; [discriminate|]. pose proof (G 0%nat c eq_refl) as G0. injection G0 as ->. cbn [total]. change (sum_over_cells rate (c :: cs)) with (rate (sx c) (sz c) * svol c + sum_over_cells rate cs). f_equal. apply IH; [now injection Ln|]. intros i c' Hc'. exact (G (S i) c' Hc').
Qed.

(** As the cells shrink, the reported reactions per second tend to the volume integral of the emission density. *)
Theorem C85_reaction_rate : forall m u h tr fm arg meth r rate X Zlo Zhi s I, goes_round s (fm_lcfs fm) -> (forall v, In v (fm_lcfs fm) -> within X Zlo Zhi (fst v) (snd v)) ->
  uniformly_continuous X Zlo Zhi rate -> emission m u h tr fm meth r rate -> volume_integral X Zlo Zhi rate s (fm_lcfs fm) I -> forall eps, 0 < eps ->
  exists h0, 0 < h0 /\ forall side src ws, 0 < side <= h0 -> make_source m u mpl_inside h tr fm arg side None meth = Ok (src, ws) -> In r (source_type src) ->
    exists n, dget (num_reactions src) r = Some n /\ Rabs (n - I) < eps.
Proof.
  intros m u h tr fm arg meth r rate X Zlo Zhi s I Hs Hb Hf He HI eps Pe. destruct (C85_cells_converge X Zlo Zhi rate s _ I Hs Hb Hf HI eps Pe) as (h0 & P0 & K). exists h0. split; [exact P0|].
  intros side src ws Hside E Hr. destruct (strengths_sum m u h tr fm arg side meth src ws r rate ltac:(lra) E Hr He) as (st & Est & Et).
  assert (Rc : reachable m u src) by (exists mpl_inside, h, tr, fm, arg, side, None, meth, src, ws, []; auto).
  destruct (C07_rates_agree m u src Rc) as (_ & _ & _ & _ & N & _). destruct (N r Hr) as (st' & Est' & _ & En & _). rewrite Est in Est'. injection Est' as <-. exists (total st). split; [exact En|]. rewrite Et.
  destruct (C06_strength_formula _ _ _ _ _ _ _ _ _ _ _ E) as (_ & Es & _). exact (K _ _ _ Hside Es).
Qed.
Print Assumptions C85_reaction_rate.

(** All channels of a source at once. *)
Lemma all_channels m u h tr fm arg meth X Zlo Zhi s (rate : reaction -> R -> R -> R) (I : reaction -> R) (rs : list reaction) :
  goes_round s (fm_lcfs fm) -> (forall v, In v (fm_lcfs fm) -> within X Zlo Zhi (fst v) (snd v)) ->
  (forall r, In r rs -> uniformly_continuous X Zlo Zhi (rate r) /\ emission m u h tr fm meth r (rate r) /\ volume_integral X Zlo Zhi (rate r) s (fm_lcfs fm) (I r)) ->
  forall eps, 0 < eps -> exists h0, 0 < h0 /\ forall side src ws, 0 < side <= h0 -> make_source m u mpl_inside h tr fm arg side None meth = Ok (src, ws) ->
    forall r, In r rs -> In r (source_type src) -> exists st, dget (strength src) r = Some st /\ Rabs (total st - I r) < eps.
Proof.
  intros Hs Hb H eps Pe. induction rs as [|r rs IH]; [exists 1; split; [lra|]; intros; contradiction|].
  destruct IH as (h1 & P1 & K1); [intros; apply H; now right|]. destruct (H r (or_introl eq_refl)) as (Hf & He & HI).
  destruct (C85_cells_converge X Zlo Zhi (rate r) s _ (I r) Hs Hb Hf HI eps Pe) as (h2 & P2 & K2).
  exists (Rmin h1 h2). split; [now apply Rmin_glb_lt|]. intros side src ws [S1 S2] E r' [<-|Hr'] Ht.
  - destruct (strengths_sum m u h tr fm arg side meth src ws r (rate r) S1 E Ht He) as (st & Est & Et). exists st. split; [exact Est|]. rewrite Et.
    destruct (C06_strength_formula _ _ _ _ _ _ _ _ _ _ _ E) as (_ & Es & _). apply (K2 _ _ _ (conj S1 (Rle_trans _ _ _ S2 (Rmin_r _ _))) Es).
  - exact (K1 side src ws (conj S1 (Rle_trans _ _ _ S2 (Rmin_l _ _))) E r' Hr' Ht).
Qed.
(** Sums over the channels of nearby numbers are near. *)
Lemma weighted_near (k a b : reaction -> R) rs eps : 0 <= eps -> (forall r, In r rs -> Rabs (a r - b r) <= eps) ->
  Rabs (total (map (fun r => k r * a r) rs) - total (map (fun r => k r * b r) rs)) <= eps * total (map (fun r => Rabs (k r)) rs).
Proof.
  intros Pe. induction rs as [|r rs IH]; intro H; cbn [map total]; [replace (0 - 0) with 0 by ring; rewrite Rabs_R0; lra|].
  specialize (IH (fun x Hx => H x (or_intror Hx))). specialize (H r (or_introl eq_refl)). set (A := total _) in *. set (B := total (map (fun r => k r * b r) rs)) in *.
  replace (k r * a r + A - (k r * b r + B)) with (k r * (a r - b r) + (A - B)) by ring. eapply Rle_trans; [apply Rabs_triang|]. rewrite Rabs_mult.
  assert (Rabs (k r) * Rabs (a r - b r) <= Rabs (k r) * eps) by (apply Rmult_le_compat_l; [apply Rabs_pos|exact H]). lra.
Qed.
Lemma total_abs_pos (k : reaction -> R) rs : 0 <= total (map (fun r => Rabs (k r)) rs).
Proof. induction rs as [|r rs IH]; cbn [map total]; [lra|]. pose proof (Rabs_pos (k r)). lra. Qed.

(** As the cells shrink, the fusion power tends to the sum over the channels of the energy released per reaction times the integral of the emission,
    and the neutron rate to the sum of the neutrons per reaction times that integral. *)
Theorem C85_power_and_neutrons : forall m u h tr fm arg types meth X Zlo Zhi s rate I, parse_source_type arg = Ok types ->
  goes_round s (fm_lcfs fm) -> (forall v, In v (fm_lcfs fm) -> within X Zlo Zhi (fst v) (snd v)) ->
  (forall r, In r types -> uniformly_continuous X Zlo Zhi (rate r) /\ emission m u h tr fm meth r (rate r) /\ volume_integral X Zlo Zhi (rate r) s (fm_lcfs fm) (I r)) ->
  forall eps, 0 < eps -> exists h0, 0 < h0 /\ forall side src ws, 0 < side <= h0 -> make_source m u mpl_inside h tr fm arg side None meth = Ok (src, ws) ->
    (exists P, calculate_total_fusion_power m src = Ok P /\ Rabs (P - total (map (fun r => total_energy m r * I r) types)) < eps) /\
    Rabs (source_rate src - total (map (fun r => INR (neutrons r) * I r) types)) < eps.
Proof.
  intros m u h tr fm arg types meth X Zlo Zhi s rate I Et Hs Hb H eps Pe.
  set (K1 := total (map (fun r => Rabs (total_energy m r)) types)). set (K2 := total (map (fun r => Rabs (INR (neutrons r))) types)).
  assert (P1 : 0 <= K1) by apply total_abs_pos. assert (P2 : 0 <= K2) by apply total_abs_pos. set (e := eps / (K1 + K2 + 1)). assert (He : 0 < e) by (apply Rdiv_lt_0_compat; lra). assert (Ee : e * (K1 + K2 + 1) = eps) by (unfold e; field; lra).
  destruct (all_channels m u h tr fm arg meth X Zlo Zhi s rate I types Hs Hb H e He) as (h0 & P0 & K). exists h0. split; [exact P0|]. intros side src ws Hside E. specialize (K side src ws Hside E).
  destruct (C06_strength_formula _ _ _ _ _ _ _ _ _ _ _ E) as (Es & _). rewrite Et in Es. injection Es as Es.
  assert (Rc : reachable m u src) by (exists mpl_inside, h, tr, fm, arg, side, None, meth, src, ws, []; auto). destruct (reachable_consistent m u src Rc) as (f & C). pose proof C as (N & E1 & E2 & E3 & L).
  assert (Nr : forall r, In r types -> Rabs (total (f r) - I r) <= e).
  { intros r Hr. rewrite Es in Hr. destruct (K r) as (st & Est & Q); [now rewrite Es|exact Hr|]. rewrite E1, dget_dmap_in in Est by exact Hr. injection Est as <-. lra. }
  split.
  - exists (power m src). split; [apply (power_ok m src f C)|]. rewrite (power_eq m src f C), pysum_total, <- Es. 
    rewrite (map_ext (fun r => pysum (f r) * total_energy m r) (fun r => total_energy m r * total (f r))) by (intro; rewrite pysum_total; ring).
    eapply Rle_lt_trans; [apply (weighted_near (total_energy m) (fun r => total (f r)) I types e); [lra|exact Nr]|]. fold K1. assert (0 <= e * K2) by (apply Rmult_le_pos; lra). lra.
  - unfold source_rate. rewrite E3, map_snd_dmap, pysum_total, <- Es. 
    rewrite (map_ext _ (fun r => INR (neutrons r) * total (f r))) by (intro; rewrite pysum_total, neutrons_label; ring).
    eapply Rle_lt_trans; [apply (weighted_near (fun r => INR (neutrons r)) (fun r => total (f r)) I types e); [lra|exact Nr]|]. fold K2. assert (0 <= e * K1) by (apply Rmult_le_pos; lra). lra.
Qed.
Print Assumptions C85_power_and_neutrons.

(** A source normalised to the power P: as the cells shrink, the reactions per second tend to P times the share of the channel in the true power. *)
Theorem C85_normalised : forall m u h tr fm arg types meth X Zlo Zhi s rate I Q P, parse_source_type arg = Ok types ->
  goes_round s (fm_lcfs fm) -> (forall v, In v (fm_lcfs fm) -> within X Zlo Zhi (fst v) (snd v)) ->
  (forall r, In r types -> uniformly_continuous X Zlo Zhi (rate r) /\ emission m u h tr fm meth r (rate r) /\ volume_integral X Zlo Zhi (rate r) s (fm_lcfs fm) (I r)) ->
  Q = total (map (fun r => total_energy m r * I r) types) -> Q <> 0 ->
  forall eps, 0 < eps -> exists h0, 0 < h0 /\ forall side src ws, 0 < side <= h0 -> make_source m u mpl_inside h tr fm arg side (Some P) meth = Ok (src, ws) ->
    forall r, In r types -> exists n, dget (num_reactions src) r = Some n /\ Rabs (n - P * I r / Q) < eps.
Proof.
  intros m u h tr fm arg types meth X Zlo Zhi s rate I Q P Et Hs Hb H EQ NQ eps Pe.
  set (B := total (map (fun r => Rabs (I r)) types)). assert (PB : 0 <= B) by apply total_abs_pos.
  assert (HB : forall r, In r types -> Rabs (I r) <= B).
  { unfold B. clear. induction types as [|r0 rs IH]; [intros r []|]; intros r [<-|Hr]; cbn [map total]; [pose proof (total_abs_pos I rs); lra|]. specialize (IH r Hr). pose proof (Rabs_pos (I r0)). lra. }
  set (q := Rabs Q). assert (Pq : 0 < q) by now apply Rabs_pos_lt.
  (* n P / W - I P / Q = P ((n - I) Q - I (W - Q)) / (W Q) *)
  set (D := 2 * (Rabs P + 1) * (q + B) / (q * q)). assert (PP := Rabs_pos P).
  assert (PD : 0 < D) by (apply Rdiv_lt_0_compat; [repeat apply Rmult_lt_0_compat; lra|now apply Rmult_lt_0_compat]).
  set (e := Rmin (q / 2) (eps / (D + 1))). assert (He0 : 0 < eps / (D + 1)) by (apply Rdiv_lt_0_compat; lra). assert (He : 0 < e) by (apply Rmin_glb_lt; lra).
  assert (e1 : e <= q / 2) by apply Rmin_l. assert (e2 : e * (D + 1) <= eps). { apply Rle_trans with (eps / (D + 1) * (D + 1)); [apply Rmult_le_compat_r; [lra|apply Rmin_r]|]. right. field. lra. }
  destruct (all_channels m u h tr fm arg meth X Zlo Zhi s rate I types Hs Hb H e He) as (h1 & P1 & K1). destruct (C85_power_and_neutrons m u h tr fm arg types meth X Zlo Zhi s rate I Et Hs Hb H e He) as (h2 & P2 & K2).
  exists (Rmin h1 h2). split; [now apply Rmin_glb_lt|]. intros side src ws [S1 S2] E r Hr.
  apply make_source_split in E. destruct E as (s0 & E0 & En).
  specialize (K1 side s0 ws (conj S1 (Rle_trans _ _ _ S2 (Rmin_l _ _))) E0 r Hr). destruct (K2 side s0 ws (conj S1 (Rle_trans _ _ _ S2 (Rmin_r _ _))) E0) as ((W & EW & NW) & _). rewrite <- EQ in NW.
  assert (Rc : reachable m u s0) by (exists mpl_inside, h, tr, fm, arg, side, None, meth, s0, ws, []; auto). destruct (reachable_consistent m u s0 Rc) as (f & C).
  destruct (C06_strength_formula _ _ _ _ _ _ _ _ _ _ _ E0) as (Es & _). rewrite Et in Es. injection Es as Es. rewrite Es in Hr. destruct (K1 Hr) as (st & Est & Nst).
  destruct (normalise_consistent m s0 f P src C En) as (-> & Z & _). rewrite (power_ok m s0 f C) in EW. injection EW as EW. rewrite EW in *.
  pose proof C as (N & E1 & E2 & E3 & L). rewrite E1, dget_dmap_in in Est by exact Hr. injection Est as <-.
  exists (total (f r) * (P / W)). split.
  { cbn [times num_reactions]. rewrite E2. unfold dmap. rewrite map_map. cbn [fst snd]. change (dget (map (fun r => (r, pysum (f r) * (P / W))) (source_type s0)) r = Some (total (f r) * (P / W))). fold (dmap (fun r => pysum (f r) * (P / W)) (source_type s0)). rewrite dget_dmap_in by exact Hr. now rewrite pysum_total. }
  set (n := total (f r)) in *. assert (HW : q / 2 < Rabs W). { unfold q. pose proof (Rabs_triang (Q - W) W) as T. replace (Q - W + W) with Q in T by ring. rewrite Rabs_minus_sym in T. fold q in T. fold q. lra. }
  rewrite <- Es in Hr. specialize (HB r Hr).
  replace (n * (P / W) - P * I r / Q) with (P * ((n - I r) * Q - I r * (W - Q)) / (W * Q)) by (field; split; assumption).
  unfold Rdiv. rewrite !Rabs_mult, Rabs_inv, Rabs_mult. fold q. set (w := Rabs W) in *.
  assert (A : Rabs ((n - I r) * Q - I r * (W - Q)) <= e * (q + B)).
  { unfold Rminus at 1. eapply Rle_trans; [apply Rabs_triang|]. rewrite Rabs_Ropp, !Rabs_mult. fold q. rewrite Rmult_plus_distr_l. apply Rplus_le_compat; [apply Rmult_le_compat_r; lra|]. rewrite Rmult_comm. apply Rmult_le_compat; try apply Rabs_pos; [lra|exact HB]. }
  assert (A2 : / (w * q) <= 2 / (q * q)). { replace (2 / (q * q)) with (/ (q / 2 * q)) by (field; lra). apply Rinv_le_contravar; [apply Rmult_lt_0_compat; lra|]. apply Rmult_le_compat_r; lra. }
  apply Rle_lt_trans with (Rabs P * (e * (q + B)) * (2 / (q * q))).
  - apply Rmult_le_compat; [apply Rmult_le_pos; apply Rabs_pos|left; apply Rinv_0_lt_compat, Rmult_lt_0_compat; lra| |exact A2]. apply Rmult_le_compat_l; [exact PP|exact A].
  - replace (Rabs P * (e * (q + B)) * (2 / (q * q))) with (e * (2 * Rabs P * (q + B) / (q * q))) by (field; lra).
    assert (2 * Rabs P * (q + B) / (q * q) <= D). { unfold D, Rdiv. apply Rmult_le_compat_r; [left; apply Rinv_0_lt_compat, Rmult_lt_0_compat; lra|]. apply Rmult_le_compat_r; lra. }
    assert (e * (2 * Rabs P * (q + B) / (q * q)) <= e * D) by (apply Rmult_le_compat_l; lra). lra.
Qed.
Print Assumptions C85_normalised.

(** A plasma with an L-shaped section and an emission that varies over it. *)
Example C85_cells_example : exists s I, goes_round s ell /\ (forall v, In v ell -> within 3 0 2 (fst v) (snd v)) /\
  changes_at_most 1 3 0 2 (fun x z => 5 + x - z) /\ uniformly_continuous 3 0 2 (fun x z => 5 + x - z) /\ volume_integral 3 0 2 (fun x z => 5 + x - z) s ell I /\
  exists ss, sample_space_2d mpl_inside ell (3 / 2, 1) (1 / 10) = Ok ss.
Proof.
  destruct C84_hypotheses as ((L & Si) & _ & _ & _ & _ & Ess). assert (Hs : exists s, goes_round s ell) by (destruct Si as [W|W]; [exists 1%Z|exists (-1)%Z]; (split; [exact L|]); (split; [tauto|exists []; exact W])). destruct Hs as [s Hs].
  assert (Hb : forall v, In v ell -> within 3 0 2 (fst v) (snd v)) by (intros v Hv; unfold ell in Hv; cbn [In] in Hv; unfold within; repeat (destruct Hv as [<-|Hv]; [cbn [fst snd]; lra|]); contradiction).
  assert (Hl : changes_at_most 1 3 0 2 (fun x z => 5 + x - z)). { intros x z x' z' _ _. replace (5 + x - z - (5 + x' - z')) with ((x - x') + - (z - z')) by ring. eapply Rle_trans; [apply Rabs_triang|]. rewrite Rabs_Ropp. lra. }
  assert (Hu : uniformly_continuous 3 0 2 (fun x z => 5 + x - z)). { intros eps He. exists (eps / 2). split; [lra|]. intros x z x' z' W W' A B. eapply Rle_lt_trans; [now apply Hl|]. lra. }
  destruct (C85_integral_exists 3 0 2 (fun x z => 5 + x - z) s ell Hs Hb Hu) as (I & HI & _). exists s, I. auto 10.
Qed.

(** A source of uniform temperature and densities meets the hypotheses of the theorems about sources. *)
Definition ex_rate (r : reaction) (_ _ : R) : R :=
  match reactivity nominal_masses nominal_units [10] (IReact r) MAuto, equation (label r) with
  | Ok ([sv], _), Some ([a; b], _) => pair_density (fuel 1e20 1e20 1e20) a b * sv | _, _ => 0 end.
Example C85_source_example : let types := [DT; DDn; DDp] in let arg := SList [IStr "D-T"%string; IStr "D-D"%string] in exists s I,
  parse_source_type arg = Ok types /\ goes_round s (fm_lcfs ex_map) /\ (forall v, In v (fm_lcfs ex_map) -> within 3 (-1) 1 (fst v) (snd v)) /\
  (forall r, In r types -> uniformly_continuous 3 (-1) 1 (ex_rate r) /\ emission nominal_masses nominal_units ex_heap ex_transport ex_map MAuto r (ex_rate r) /\
     volume_integral 3 (-1) 1 (ex_rate r) s (fm_lcfs ex_map) (I r) /\ 0 < I r) /\
  total (map (fun r => total_energy nominal_masses r * I r) types) <> 0 /\
  exists src ws, make_source nominal_masses nominal_units mpl_inside ex_heap ex_transport ex_map arg (1/2) None MAuto = Ok (src, ws).
Proof.
  intros types arg. destruct C16_C17_example as (Hm & Hu & Hk & _). destruct C06_C12_example as (src & ws & E & Et & _ & _ & _ & Nc & T10 & _).
  assert (L : loop square_lcfs) by (now exists (1, -1), (tl square_lcfs)).
  assert (Hs : goes_round 1 square_lcfs).
  { split; [exact L|]. split; [now left|]. exists []. intros [x z] n _ W. apply winds_sum in W. unfold square_lcfs in W. rewrite !edge_sum_cons in W. unfold ww, goes_up, goes_down, at_or_above, turn in W. cbn [fst snd] in W. change (edge_sum _ [_]) with 0 in W.
    destruct (Rleb_spec z (-1)); [destruct (Rleb_spec z 1); [|lra]; cbn [b2r negb andb] in W; left; apply eq_IZR; lra|].
    destruct (Rleb_spec z 1); cbn [b2r negb andb] in W; [|left; apply eq_IZR; lra].
    destruct (Rleb_spec 0 ((3 - 3) * (z - -1) - (x - 3) * (1 - -1))), (Rltb_spec ((1 - 1) * (z - 1) - (x - 1) * (-1 - 1)) 0); cbn [b2r negb andb] in W; try (left; apply eq_IZR; lra); try (right; apply eq_IZR; lra). }
  assert (Hb : forall v, In v square_lcfs -> within 3 (-1) 1 (fst v) (snd v)) by (intros v Hv; unfold square_lcfs in Hv; cbn [In] in Hv; unfold within; repeat (destruct Hv as [<-|Hv]; [cbn [fst snd]; lra|]); contradiction).
  assert (EV : exists V, volume (SClosed square_lcfs) = Ok V /\ 0 < V).
  { rewrite (volume_loop square_lcfs L). eexists. split; [reflexivity|]. pose proof PI_RGT_0. unfold square_lcfs. rewrite !edge_sum_cons. change (edge_sum _ [_]) with 0. unfold mom, crs. cbn [fst snd]. match goal with |- context [Rltb 0 ?e] => destruct (Rltb_spec 0 e) as [Q|Q] end; [apply Rmult_lt_0_compat; lra|exfalso; lra]. }
  destruct EV as (V & EV & PV). exists 1%Z, (fun r => ex_rate r 0 0 * V).
  assert (Hf : forall k, uniformly_continuous 3 (-1) 1 (fun _ _ => k)) by (intros k eps He; exists 1; split; [lra|]; intros; replace (k - k) with 0 by ring; rewrite Rabs_R0; exact He).
  assert (P : forall r, In r types -> 0 < ex_rate r 0 0).
  { intros r Hr. unfold ex_rate. destruct (reactivity_total nominal_masses nominal_units Hm Hu Hk [10] r MAuto ltac:(discriminate)) as (v & w & Ev & Pv); [intros ? [<-|[]]; lra|]. 
    assert (Lv : exists sv, v = [sv]).
    { destruct (Source.cells src) as [|c cs] eqn:Ec; [congruence|]. destruct (C06_strength_formula _ _ _ _ _ _ _ _ _ _ _ E) as (_ & _ & _ & F). destruct (F r) as (st & _ & _ & G); [now rewrite Et|]. rewrite Ec in G.
      destruct (G 0%nat c eq_refl) as (psi & T & d & t & h3 & sv & w' & a & b & prods & _ & _ & _ & _ & _ & P6 & P7 & _). rewrite (T10 T (nth_error_In _ _ P6)) in P7. rewrite P7 in Ev. injection Ev as <- _. eauto. }
    destruct Lv as [sv ->]. rewrite Ev. pose proof (Forall_inv Pv). destruct Hr as [<-|[<-|[<-|[]]]]; vm_compute equation; unfold pair_density; destruct (nuclide_eq_dec _ _); cbn [fuel]; apply Rmult_lt_0_compat; try assumption; lra. }
  split; [reflexivity|]. split; [exact Hs|]. split; [exact Hb|]. split; [|split].
  - intros r Hr. split; [exact (Hf (ex_rate r 0 0))|]. split; [|split].
    + intros x z psi T d t h3 sv w a b products _ _ R1 R2 R3 R4 Ev Eq. cbn [ex_transport temp_prof d_prof t_prof he3_prof] in *. rewrite ex_read in R1, R2, R3, R4 by lia. cbn [Nat.eqb] in *. injection R1 as <-. injection R2 as <-. injection R3 as <-. injection R4 as <-. unfold ex_rate. now rewrite Ev, Eq.
    + destruct (C85_integral_exists 3 (-1) 1 (ex_rate r) 1 square_lcfs Hs Hb (Hf (ex_rate r 0 0))) as (I & HI & _). pose proof (C85_uniform 3 (-1) 1 (ex_rate r 0 0) 1 square_lcfs I V Hs Hb HI EV) as Q. rewrite <- Q. exact HI.
    + apply Rmult_lt_0_compat; [now apply P|exact PV].
  - assert (0 < total_energy nominal_masses DT) by (cbn [total_energy]; unfold E_DT; cbn [nominal_masses mD mT mHe mHe3 mn mp me amu_J]; lra).
    assert (0 < total_energy nominal_masses DDn) by (cbn [total_energy]; unfold E_DD_HE3N; cbn [nominal_masses mD mT mHe mHe3 mn mp me amu_J]; lra).
    assert (0 < total_energy nominal_masses DDp) by (cbn [total_energy]; unfold E_DD_TP; cbn [nominal_masses mD mT mHe mHe3 mn mp me amu_J]; lra).
    assert (Q : forall r, In r types -> 0 < total_energy nominal_masses r -> 0 < total_energy nominal_masses r * (ex_rate r 0 0 * V)) by (intros r Hr He; apply Rmult_lt_0_compat; [exact He|apply Rmult_lt_0_compat; [now apply P|exact PV]]).
    pose proof (Q DT ltac:(cbn; auto) H). pose proof (Q DDn ltac:(cbn; auto) H0). pose proof (Q DDp ltac:(cbn; auto) H1). unfold types. cbn [map total]. lra.
  - eauto.
Qed.
