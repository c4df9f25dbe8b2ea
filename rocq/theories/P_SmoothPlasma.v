(** Property theorems C87 (a smooth plasma: profiles without jumps, totals that converge). *)
From Coq Require Import Reals Lra Lia ZArith List Bool Sorted Permutation String.
From Coquelicot Require Import Coquelicot.
From Verif Require Import Base Reactions SpecReactions ReactionsProofs P_Reactions Profile SpecProfile ProfileProofs P_Profile Transport TransportProofs P_Transport Reactivity SpecReactivity ReactivityProofs P_Reactivity
  Space SpaceProofs SpecSpace P_Space Source SpecSource SourceProofs P_Source Geometry SpecGeometry GeometryProofs P_Geometry SpecGrid GridProofs GridProofs2 P_Grid SpecIntegral IntegralProofs IntegralProofs2 IntegralProofs3 P_Integral
  SpecSmooth SmoothProofs P_Smooth SmoothProfiles.
Import ListNotations.
Open Scope R_scope.

Lemma scales_no_jump p ss : (exists f, continuity f /\ forall x, value p x = Ok (f x)) -> forall x, no_jump (fun _ => True) (profile_is (set_scales ss p)) x.
Proof.
  intros (f & C & V) x. assert (Q : forall y, profile_is (set_scales ss p) y (product ss * f y)) by (intro y; unfold profile_is; rewrite C19_scales_multiply, V; reflexivity).
  apply (continuous_no_jump _ (fun y => product ss * f y)); [|apply Q|intros; apply Q]. apply (continuity_pt_mult (fun _ => product ss) f); [apply continuity_pt_const; intros ? ?; reflexivity|apply C].
Qed.

(** The three kinds of profile, after any calls of set_scale. *)
Theorem C87_parabolic : forall core alpha beta ss x, 0 < alpha -> 0 < beta -> no_jump (fun _ => True) (profile_is (set_scales ss (parabolic_profile core alpha beta))) x.
Proof. intros core alpha beta ss x Ha Hb. revert x. apply scales_no_jump. eexists. split; [now apply (parab_continuous core alpha beta)|]. intro; now apply parab_value. Qed.
Print Assumptions C87_parabolic.

Theorem C87_pedestal : forall core ped sep alpha beta rho_ped ss x, 0 < alpha -> 0 < beta -> rho_ped < 1 -> no_jump (fun _ => True) (profile_is (set_scales ss (pedestal_profile core ped sep alpha beta rho_ped))) x.
Proof.
  intros core ped sep alpha beta rho_ped ss x Ha Hb Hr. revert x. apply scales_no_jump. destruct (C21_pedestal_shape core ped sep alpha beta rho_ped Ha Hb) as (f & V & _ & _ & _ & C & _).
  exists f. split; [|exact V]. apply C. unfold Rmin, Rmax. repeat destruct (Rle_dec _ _); lra.
Qed.
Print Assumptions C87_pedestal.

Theorem C87_data : forall vals rho p ss x, data_profile vals rho 1 = Ok p -> distinct_radii (combine rho vals) -> inside_table (combine rho vals) 0 -> inside_table (combine rho vals) 1 ->
  no_jump (fun _ => True) (profile_is (set_scales ss p)) x.
Proof.
  intros vals rho p ss x E Hd H0 H1. revert x. apply scales_no_jump. unfold data_profile in E. destruct (Nat.eqb_spec (List.length rho) (List.length vals)); [|discriminate]. destruct rho as [|r rho]; [discriminate|]. injection E as <-.
  destruct (data_lipschitz _ Hd H0 H1) as (f & L & PL & V & K). exists f. split; [now apply (lipschitz_continuity f L)|exact V].
Qed.
Print Assumptions C87_data.

(** The profiles of a TransportInformation built from objects without jumps have none. *)
Lemma scaled_no_jump (a b : R -> res R) k : (forall x, a x = scaled k (b x)) -> (forall x, no_jump (fun _ => True) (fun y v => b y = Ok v) x) -> forall x, no_jump (fun _ => True) (fun y v => a y = Ok v) x.
Proof.
  intros E H x eps He. destruct (H x (eps / (Rabs k + 1))) as (d & Pd & K); [pose proof (Rabs_pos k); apply Rdiv_lt_0_compat; lra|]. exists d. split; [exact Pd|]. intros y Hy D. destruct (K y Hy D) as (v & v' & V & V' & N).
  exists (k * v), (k * v'). rewrite !E, V, V'. split; [reflexivity|]. split; [reflexivity|]. rewrite <- Rmult_minus_distr_l, Rabs_mult. pose proof (Rabs_pos k). set (e := eps / (Rabs k + 1)) in *. assert ((Rabs k + 1) * e = eps) by (unfold e; field; lra).
  assert (Rabs k * Rabs (v' - v) <= Rabs k * e) by (apply Rmult_le_compat_l; lra). assert (0 <= Rabs (v' - v)) by apply Rabs_pos. lra.
Qed.
Theorem C87_from_parameterisations : forall h iT ifuel rho c h' tr, (iT < List.length h)%nat -> (ifuel < List.length h)%nat -> from_parameterisations h iT ifuel rho c = Ok (h', tr) ->
  (forall x, no_jump (fun _ => True) (reads h iT) x) -> (forall x, no_jump (fun _ => True) (reads h ifuel) x) ->
  forall p x, In p [temp_prof tr; d_prof tr; t_prof tr; he3_prof tr] -> no_jump (fun _ => True) (reads h' p) x.
Proof.
  intros h iT ifuel rho c h' tr LT Lf E HT Hf p x Hp. destruct (C25_from_parameterisations h iT ifuel rho c Lf) as (h1 & tr1 & E1 & _ & Q). rewrite E in E1. injection E1 as <- <-.
  destruct Hp as [<-|[<-|[<-|[<-|[]]]]].
  - apply (scaled_no_jump (read h' (temp_prof tr)) (read h iT) 1); [|exact HT]. intro y. destruct (Q y) as (_ & _ & _ & R). rewrite (R LT). destruct (read h iT y); cbn [scaled]; [f_equal; ring|reflexivity..].
  - exact (scaled_no_jump _ _ _ (fun y => proj1 (Q y)) Hf x).
  - exact (scaled_no_jump _ _ _ (fun y => proj1 (proj2 (Q y))) Hf x).
  - exact (scaled_no_jump _ _ _ (fun y => proj1 (proj2 (proj2 (Q y)))) Hf x).
Qed.
Print Assumptions C87_from_parameterisations.

Lemma map_fst_combine (a b : list R) : List.length b = List.length a -> map fst (combine a b) = a.
Proof. revert b. induction a as [|x a IH]; intros [|y b] L; try discriminate; [reflexivity|]. cbn [combine map fst]. f_equal. apply IH. now injection L. Qed.
Theorem C87_from_profiles : forall h Tv nv rho c h' tr, from_profiles h Tv nv rho c = Ok (h', tr) -> NoDup rho -> (exists a b, In a rho /\ In b rho /\ a <= 0 /\ 1 <= b) ->
  forall p x, In p [temp_prof tr; d_prof tr; t_prof tr; he3_prof tr] -> no_jump (fun _ => True) (reads h' p) x.
Proof.
  intros h Tv nv rho c h' tr E Nd (a & b & Ha & Hb & La & Lb) p x Hp. destruct (C25_from_profiles h Tv nv rho c) as [A B].
  assert (G : List.length Tv = List.length rho /\ List.length nv = List.length rho /\ rho <> []).
  { destruct (Nat.eq_dec (List.length Tv) (List.length rho)) as [L1|L1]; [|rewrite B in E by tauto; discriminate]. destruct (Nat.eq_dec (List.length nv) (List.length rho)) as [L2|L2]; [|rewrite B in E by tauto; discriminate]. destruct rho; [contradiction|]. repeat split; auto. discriminate. }
  destruct (A G) as (h1 & tr1 & fuel & temp & E1 & _ & Ef & ET & Q). rewrite E in E1. injection E1 as <- <-. destruct G as (L1 & L2 & _).
  assert (F1 : forall l, List.length l = List.length rho -> map fst (combine rho l) = rho) by (intros l Q'; now apply map_fst_combine).
  assert (T1 : forall l, List.length l = List.length rho -> distinct_radii (combine rho l) /\ inside_table (combine rho l) 0 /\ inside_table (combine rho l) 1).
  { intros l L. assert (I : forall r, In r rho -> exists q, In q (combine rho l) /\ fst q = r) by (intros r Hr; rewrite <- (F1 l L) in Hr; apply in_map_iff in Hr; destruct Hr as (q & Eq & Hq); eauto).
    split; [unfold distinct_radii; now rewrite F1|]. destruct (I a Ha) as (qa & Ia & <-). destruct (I b Hb) as (qb & Ib & <-). split; (split; [exists qa|exists qb]; (split; [assumption|lra])). }
  assert (Jf : forall x, no_jump (fun _ => True) (fun y v => value fuel y = Ok v) x) by (intro y; destruct (T1 nv L2) as (D & I0 & I1); exact (C87_data nv rho fuel [] y Ef D I0 I1)).
  assert (JT : forall x, no_jump (fun _ => True) (fun y v => value temp y = Ok v) x) by (intro y; destruct (T1 Tv L1) as (D & I0 & I1); exact (C87_data Tv rho temp [] y ET D I0 I1)).
  destruct Hp as [<-|[<-|[<-|[<-|[]]]]].
  - apply (scaled_no_jump (read h' (temp_prof tr)) (value temp) 1); [|exact JT]. intro y. destruct (Q y) as (_ & _ & _ & R). rewrite R. destruct (value temp y); cbn [scaled]; [f_equal; ring|reflexivity..].
  - exact (scaled_no_jump _ _ _ (fun y => proj1 (Q y)) Jf x).
  - exact (scaled_no_jump _ _ _ (fun y => proj1 (proj2 (Q y))) Jf x).
  - exact (scaled_no_jump _ _ _ (fun y => proj1 (proj2 (proj2 (Q y)))) Jf x).
Qed.
Print Assumptions C87_from_profiles.

(** A plasma of positive area whose normalised flux is continuous, with profiles without jumps and temperatures at which the reactivity is defined: every channel has an
    integral of its emission over the plasma; with small enough cells the source is built; and its reactions, fusion power and neutrons per second tend to the integrals. *)
Theorem C87_totals_converge : forall m u h tr fm arg types meth X Zlo Zhi s psi A, physical_masses m -> 0 < amu_kg u -> 0 < keV_J u -> parse_source_type arg = Ok types ->
  goes_round s (fm_lcfs fm) -> (forall v, In v (fm_lcfs fm) -> within X Zlo Zhi (fst v) (snd v)) -> area (SClosed (fm_lcfs fm)) = Ok A -> 0 < A ->
  uniformly_continuous X Zlo Zhi psi -> (forall x z, mpl_inside (fm_lcfs fm) (x, z) = true -> fm_psi_norm fm (x, z) = Ok (psi x z)) ->
  (forall p x, In p [temp_prof tr; d_prof tr; t_prof tr; he3_prof tr] -> no_jump (fun _ => True) (reads h p) x) ->
  (forall rho T r, 0 <= rho <= 1 -> read h (temp_prof tr) rho = Ok T -> In r types -> regular r meth T) ->
  exists I, (forall r, In r types -> exists rate, emission m u h tr fm meth r rate /\ uniformly_continuous X Zlo Zhi rate /\ volume_integral X Zlo Zhi rate s (fm_lcfs fm) (I r)) /\
  forall eps, 0 < eps -> exists h0, 0 < h0 /\ forall side, 0 < side <= h0 ->
    exists src ws P, make_source m u mpl_inside h tr fm arg side None meth = Ok (src, ws) /\
      (forall r, In r types -> exists n, dget (num_reactions src) r = Some n /\ Rabs (n - I r) < eps) /\
      calculate_total_fusion_power m src = Ok P /\ Rabs (P - total (map (fun r => total_energy m r * I r) types)) < eps /\
      Rabs (source_rate src - total (map (fun r => INR (neutrons r) * I r) types)) < eps.
Proof.
  intros m u h tr fm arg types meth X Zlo Zhi s psi A Hm Hu Hk Et Hs Hb EA PA Hpsi Epsi Hp HT. pose proof Hs as (L & S1 & ex & W).
  (* rates and integrals *)
  assert (R1 : forall r, exists rI, In r types -> emission m u h tr fm meth r (fst rI) /\ uniformly_continuous X Zlo Zhi (fst rI) /\ volume_integral X Zlo Zhi (fst rI) s (fm_lcfs fm) (snd rI)).
  { intro r. destruct (in_dec reaction_eq_dec r types) as [Hr|Hr]; [|exists (fun _ _ => 0, 0); contradiction].
    destruct (smooth_emission m u h tr fm meth r X Zlo Zhi psi Hm Hu Hk Hpsi Epsi) as (rate & He & Hc); [intros; now apply Hp|intros; eapply HT; eauto|].
    destruct (C85_integral_exists X Zlo Zhi rate s _ Hs Hb Hc) as (I & HI & _). exists (rate, I). intros _. cbn [fst snd]. auto. }
  assert (R2 : exists rI : reaction -> (R -> R -> R) * R, forall r, In r types -> emission m u h tr fm meth r (fst (rI r)) /\ uniformly_continuous X Zlo Zhi (fst (rI r)) /\ volume_integral X Zlo Zhi (fst (rI r)) s (fm_lcfs fm) (snd (rI r))).
  { destruct (R1 DT) as [a1 H1], (R1 DDn) as [a2 H2], (R1 TT) as [a3 H3], (R1 DDp) as [a4 H4], (R1 DHe3) as [a5 H5]. exists (fun r => match r with DT => a1 | DDn => a2 | TT => a3 | DDp => a4 | DHe3 => a5 end). intros []; assumption. }
  clear R1. destruct R2 as [rI RI]. exists (fun r => snd (rI r)). split; [intros r Hr; exists (fst (rI r)); now apply RI|].
  intros eps Pe.
  assert (RI' : forall r, In r types -> uniformly_continuous X Zlo Zhi (fst (rI r)) /\ emission m u h tr fm meth r (fst (rI r)) /\ volume_integral X Zlo Zhi (fst (rI r)) s (fm_lcfs fm) (snd (rI r))) by (intros r Hr; destruct (RI r Hr) as (Q1 & Q2 & Q3); auto).
  destruct (all_channels m u h tr fm arg meth X Zlo Zhi s (fun r => fst (rI r)) (fun r => snd (rI r)) types Hs Hb RI' eps Pe) as (h1 & P1 & K1).
  destruct (C85_power_and_neutrons m u h tr fm arg types meth X Zlo Zhi s (fun r => fst (rI r)) (fun r => snd (rI r)) Et Hs Hb RI' eps Pe) as (h2 & P2 & K2).
  assert (Si : simple_but ex (fm_lcfs fm)) by (split; [exact L|]; destruct S1 as [->| ->]; [left|right]; exact W).
  destruct (volume (SClosed (fm_lcfs fm))) as [V| |] eqn:EV; [|rewrite (volume_loop _ L) in EV; discriminate..].
  destruct (C84_converges ex (fm_lcfs fm) A V A Si (fun v Hv => proj1 (proj1 (Hb v Hv))) EA EV PA) as (h3 & P3 & K3).
  exists (Rmin h1 (Rmin h2 h3)). split; [repeat apply Rmin_glb_lt; assumption|]. intros side [Hside Hle].
  assert (L1 : side <= h1) by (eapply Rle_trans; [exact Hle|apply Rmin_l]). assert (L2 : side <= h2) by (eapply Rle_trans; [exact Hle|eapply Rle_trans; [apply Rmin_r|apply Rmin_l]]). assert (L3 : side <= h3) by (eapply Rle_trans; [exact Hle|eapply Rle_trans; [apply Rmin_r|apply Rmin_r]]).
  destruct (proj2 (C28_total mpl_inside (fm_lcfs fm) (fm_o fm) side Hside) (loop_nonempty _ L)) as [cs Ecs].
  assert (Nc : cs <> []). { intros ->. destruct (K3 (fm_o fm) side [] (conj Hside L3) Ecs) as [Q _]. cbn [List.length INR] in Q. rewrite Rmult_0_l, Rminus_0_l, Rabs_Ropp, Rabs_pos_eq in Q; lra. }
  destruct (make_regular m u mpl_inside h tr fm arg side meth cs types Hm Hu Hk Et Ecs Nc) as (src & ws & E & Ec & Est).
  - intros c Hc. destruct (sample_lattice mpl_inside _ _ side Hside _ Ecs c Hc) as (In_ & _). exists (psi (sx c) (sz c)). now apply Epsi.
  - intro x. destruct (read_fun h (temp_prof tr)) as (f & F & _ & Kf); [intro; apply Hp; cbn; auto|]. exists (f x). split; [apply F|]. intros r Hr. rewrite Kf. apply (HT (clamp01 x)); [apply (clip_range 0 1); lra|apply F|exact Hr].
  - intros p x Hx. destruct (read_fun h p) as (f & F & _); [intro; apply Hp; cbn in *; tauto|]. eauto.
  - destruct (K2 side src ws (conj Hside L2) E) as ((P & EP & NP) & NN). exists src, ws, P. split; [exact E|]. split; [|split; [exact EP|split; [exact NP|exact NN]]].
    intros r Hr. destruct (K1 side src ws (conj Hside L1) E r Hr) as (st & Es & Ns); [now rewrite Est|].
    assert (Rc : reachable m u src) by (exists mpl_inside, h, tr, fm, arg, side, None, meth, src, ws, []; auto).
    destruct (C07_rates_agree m u src Rc) as (_ & _ & _ & _ & N & _). destruct (N r) as (st' & Est' & _ & En & _); [now rewrite Est|]. rewrite Es in Est'. injection Est' as <-. eauto.
Qed.
Print Assumptions C87_totals_converge.

(** A plasma with a square section and a parabolic temperature that is 0 at the edge meets the hypotheses. *)
Example C87_example : let types := [DT; DDn; DDp] in let arg := SList [IStr "D-T"%string; IStr "D-D"%string] in
  let psi := fun x (_ : R) => Rabs (x - 2) / 2 in exists s h tr,
  from_parameterisations [parabolic_profile 20 1.5 2; pedestal_profile 1e20 8e19 1e19 1 2 0.9] 0%nat 1%nat [] dt_5050 = Ok (h, tr) /\
  parse_source_type arg = Ok types /\ goes_round s (fm_lcfs ex_map) /\ (forall v, In v (fm_lcfs ex_map) -> within 3 (-1) 1 (fst v) (snd v)) /\ area (SClosed (fm_lcfs ex_map)) = Ok 4 /\
  uniformly_continuous 3 (-1) 1 psi /\ (forall x z, mpl_inside (fm_lcfs ex_map) (x, z) = true -> fm_psi_norm ex_map (x, z) = Ok (psi x z)) /\
  (forall p x, In p [temp_prof tr; d_prof tr; t_prof tr; he3_prof tr] -> no_jump (fun _ => True) (reads h p) x) /\
  (forall rho T r, 0 <= rho <= 1 -> read h (temp_prof tr) rho = Ok T -> In r types -> regular r MAuto T) /\ read h (temp_prof tr) 1 = Ok 0.
Proof.
  intros types arg psi. destruct C85_source_example as (s & I & Et & Hs & Hb & _). set (h0 := [parabolic_profile 20 1.5 2; pedestal_profile 1e20 8e19 1e19 1 2 0.9]).
  destruct (C25_from_parameterisations h0 0%nat 1%nat [] dt_5050) as (h & tr & E & _ & Q); [cbn; lia|].
  assert (RT : forall x, read h (temp_prof tr) x = value (parabolic_profile 20 1.5 2) x) by (intro x; destruct (Q x) as (_ & _ & _ & R); rewrite R; [reflexivity|cbn; lia]).
  exists s, h, tr. split; [exact E|]. split; [exact Et|]. split; [exact Hs|]. split; [exact Hb|]. split; [|split; [|split; [|split; [|split]]]].
  - cbn [ex_map fm_lcfs area]. rewrite (area_loop square_lcfs) by (now exists (1, -1), (tl square_lcfs)). f_equal. unfold square_lcfs. rewrite !edge_sum_cons. change (edge_sum _ [_]) with 0. unfold crs. cbn [fst snd]. rewrite Rabs_pos_eq; lra.
  - intros eps He. exists eps. split; [exact He|]. intros x z x' z' _ _ D _. unfold psi. replace (Rabs (x - 2) / 2 - Rabs (x' - 2) / 2) with ((Rabs (x - 2) - Rabs (x' - 2)) / 2) by field. unfold Rdiv. rewrite Rabs_mult, (Rabs_pos_eq (/ 2)) by lra.
    pose proof (Rabs_triang_inv2 (x - 2) (x' - 2)) as T. replace (x - 2 - (x' - 2)) with (x - x') in T by ring. pose proof (Rabs_pos (x - x')). lra.
  - reflexivity.
  - apply (C87_from_parameterisations h0 0%nat 1%nat [] dt_5050 h tr); [cbn; lia|cbn; lia|exact E| |].
    + intro x. exact (C87_parabolic 20 1.5 2 [] x ltac:(lra) ltac:(lra)).
    + intro x. exact (C87_pedestal 1e20 8e19 1e19 1 2 0.9 [] x ltac:(lra) ltac:(lra) ltac:(lra)).
  - intros rho T r Hr ET Hi. rewrite RT in ET. destruct (C20_parabolic_shape 20 1.5 2) as (f & F & _ & _ & _ & B); [lra..|]. rewrite F in ET. injection ET as <-. specialize (B rho). split; [intros; lra|].
    intro N. exfalso. apply N. split; [|discriminate]. unfold fitted. destruct Hi as [<-|[<-|[<-|[]]]]; auto.
  - rewrite RT. destruct (C20_parabolic_shape 20 1.5 2) as (f & F & _ & F1 & _); [lra..|]. now rewrite F, F1.
Qed.
