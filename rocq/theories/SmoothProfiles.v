(** Lemmas for C87: profiles without jumps, and the emission of a smooth plasma. *)
From Coq Require Import Reals Lra Lia ZArith List Bool Sorted Permutation String.
From Coquelicot Require Import Coquelicot.
From Verif Require Import Base Reactions SpecReactions ReactionsProofs P_Reactions Profile SpecProfile ProfileProofs P_Profile Transport TransportProofs P_Transport Reactivity SpecReactivity ReactivityProofs P_Reactivity
  Space SpaceProofs SpecSpace P_Space Source SpecSource SourceProofs P_Source SpecGeometry SpecGrid SpecIntegral SpecSmooth SmoothProofs P_Smooth.
Import ListNotations.
Open Scope R_scope.

(** A computation without jumps is a continuous function. *)
Lemma no_jump_fun (comp : R -> R -> Prop) : (forall x v v', comp x v -> comp x v' -> v = v') -> (forall x, no_jump (fun _ => True) comp x) ->
  (forall x, exists v, comp x v).
Proof. intros _ H x. destruct (H x 1 ltac:(lra)) as (d & Pd & K). destruct (K x Logic.I) as (v & _ & V & _); [replace (x - x) with 0 by ring; now rewrite Rabs_R0|]. eauto. Qed.
Lemma no_jump_continuous (comp : R -> R -> Prop) f : (forall x v v', comp x v -> comp x v' -> v = v') -> (forall x, comp x (f x)) -> (forall x, no_jump (fun _ => True) comp x) -> continuity f.
Proof.
  intros U F H x eps He. destruct (H x eps He) as (d & Pd & K). exists d. split; [exact Pd|]. intros y [_ D]. change (Rabs (y - x) < d) in D. destruct (K y Logic.I D) as (v & v' & V & V' & E).
  change (Rabs (f y - f x) < eps). now rewrite (U x _ _ (F x) V), (U y _ _ (F y) V').
Qed.
Lemma continuous_no_jump (comp : R -> R -> Prop) f (dom : R -> Prop) x : continuity_pt f x -> comp x (f x) -> (forall y, dom y -> comp y (f y)) -> no_jump dom comp x.
Proof.
  intros C V F eps He. destruct (C eps He) as (del & Pd & K). exists del. split; [exact Pd|]. intros y Hy D. exists (f x), (f y). split; [exact V|]. split; [now apply F|].
  destruct (Req_dec y x) as [->|N]; [replace (f x - f x) with 0 by ring; now rewrite Rabs_R0|]. apply (K y). split; [split; [exact Logic.I|congruence]|exact D].
Qed.

(** ** The three classes of profiles *)
Lemma parab_continuous core alpha beta : 0 < alpha -> 0 < beta -> continuity (fun rho => parabola core alpha beta (clamp01 rho)).
Proof.
  intros Ha Hb x. unfold parabola. assert (C : forall k, continuity (fun _ : R => k)) by (intros k; apply continuity_const; intros ? ?; reflexivity).
  apply (continuity_pt_mult (fun _ => core) (fun x => pw (1 - pw (clamp01 x) beta) alpha)); [apply C|].
  apply (continuity_pt_comp (fun x => 1 - pw (clamp01 x) beta) (fun u => pw u alpha)); [|now apply pw_continuous].
  apply (continuity_pt_minus (fun _ => 1) (fun x => pw (clamp01 x) beta)); [apply C|]. apply (continuity_pt_comp clamp01 (fun u => pw u beta)); [apply clamp01_continuous|now apply pw_continuous].
Qed.
(** Straight lines through a sorted table change at a bounded rate. *)
Lemma interp_start x0 y0 rest : StronglySorted ltx ((x0, y0) :: rest) -> interp_from x0 y0 rest x0 = y0.
Proof.
  intro S. destruct rest as [|[x1 y1] rest]; [reflexivity|]. cbn [interp_from]. inversion S as [|? ? _ F]; subst. assert (L := Forall_inv F). cbv [ltx fst] in L. destruct (Rleb_spec x1 x0); [lra|]. field. lra.
Qed.
Lemma interp_lipschitz rest : forall x0 y0, StronglySorted ltx ((x0, y0) :: rest) -> exists L, 0 <= L /\ forall v w, x0 <= v -> x0 <= w -> Rabs (interp_from x0 y0 rest v - interp_from x0 y0 rest w) <= L * Rabs (v - w).
Proof.
  induction rest as [|[x1 y1] rest IH]; intros x0 y0 S.
  - exists 0. split; [lra|]. intros. cbn [interp_from]. replace (y0 - y0) with 0 by ring. rewrite Rabs_R0. lra.
  - inversion S as [|? ? S1 F]; subst. assert (L01 := Forall_inv F). cbv [ltx fst] in L01. destruct (IH x1 y1 S1) as (L & PL & K). set (k := (y1 - y0) / (x1 - x0)).
    exists (Rabs k + L). pose proof (Rabs_pos k) as Pk. split; [lra|].
    assert (St := interp_start x1 y1 rest S1).
    assert (Cross : forall v w, x0 <= v -> v < x1 -> x1 <= w -> Rabs (k * (v - x0) + y0 - interp_from x1 y1 rest w) <= (Rabs k + L) * Rabs (v - w)).
    { intros v w Hv Hv1 Hw. replace (k * (v - x0) + y0 - interp_from x1 y1 rest w) with (k * (v - x1) + (interp_from x1 y1 rest x1 - interp_from x1 y1 rest w)) by (rewrite St; unfold k; field; lra).
      eapply Rle_trans; [apply Rabs_triang|]. rewrite Rabs_mult. specialize (K x1 w (Rle_refl _) Hw). assert (A : Rabs (v - x1) <= Rabs (v - w)) by (rewrite !Rabs_left1 by lra; lra). assert (B : Rabs (x1 - w) <= Rabs (v - w)) by (rewrite !Rabs_left1 by lra; lra).
      assert (Rabs k * Rabs (v - x1) <= Rabs k * Rabs (v - w)) by (apply Rmult_le_compat_l; lra). assert (L * Rabs (x1 - w) <= L * Rabs (v - w)) by (apply Rmult_le_compat_l; lra). lra. }
    intros v w Hv Hw. cbn [interp_from]. fold k. pose proof (Rabs_pos (v - w)) as Pd. destruct (Rleb_spec x1 v), (Rleb_spec x1 w).
    + eapply Rle_trans; [apply K; assumption|]. assert (0 <= Rabs k * Rabs (v - w)) by (apply Rmult_le_pos; lra). lra.
    + rewrite Rabs_minus_sym, (Rabs_minus_sym v w). apply Cross; lra.
    + apply Cross; lra.
    + replace (k * (v - x0) + y0 - (k * (w - x0) + y0)) with (k * (v - w)) by ring. rewrite Rabs_mult. assert (0 <= L * Rabs (v - w)) by (apply Rmult_le_pos; lra). lra.
Qed.
Lemma clamp01_near x y : Rabs (clamp01 x - clamp01 y) <= Rabs (x - y).
Proof. unfold clamp01, Rmin, Rmax. repeat destruct (Rle_dec _ _); unfold Rabs; repeat destruct (Rcase_abs _); lra. Qed.
Lemma last_x_in rest : forall x0 y0, exists y, In (last_x x0 rest, y) ((x0, y0) :: rest).
Proof. induction rest as [|[x1 y1] rest IH]; intros x0 y0; cbn [last_x]; [exists y0; now left|]. destruct (IH x1 y1) as [y H]. exists y. now right. Qed.
Lemma sorted_last rest : forall x0 y0 p, StronglySorted ltx ((x0, y0) :: rest) -> In p ((x0, y0) :: rest) -> x0 <= fst p <= last_x x0 rest.
Proof.
  induction rest as [|[x1 y1] rest IH]; intros x0 y0 p S Hp; inversion S as [|? ? S1 F]; subst.
  - destruct Hp as [<-|[]]. cbn [last_x fst]. lra.
  - assert (L01 := Forall_inv F). cbv [ltx fst] in L01. cbn [last_x]. destruct Hp as [<-|Hp]; [|specialize (IH x1 y1 p S1 Hp); lra]. specialize (IH x1 y1 (x1, y1) S1 (or_introl eq_refl)). cbn [fst] in *. lra.
Qed.
(** A table from the axis to the edge. *)
Lemma data_lipschitz t : distinct_radii t -> inside_table t 0 -> inside_table t 1 -> exists f L, 0 <= L /\ (forall rho, value (PData (sort_pairs t) 1) rho = Ok (f rho)) /\ forall x y, Rabs (f x - f y) <= L * Rabs (x - y).
Proof.
  intros Hd [(p0 & Hp0 & L0) _] [_ (p1 & Hp1 & L1)]. pose proof (sort_pairs_strict t Hd) as S. assert (Pe := sort_pairs_perm t).
  assert (Q0 : In p0 (sort_pairs t)) by (eapply Permutation_in; [symmetry; exact Pe|exact Hp0]). assert (Q1 : In p1 (sort_pairs t)) by (eapply Permutation_in; [symmetry; exact Pe|exact Hp1]).
  destruct (sort_pairs t) as [|[x0 y0] rest] eqn:E; [contradiction|]. destruct (interp_lipschitz rest x0 y0 S) as (L & PL & K).
  pose proof (sorted_last rest x0 y0 p0 S Q0) as B0. pose proof (sorted_last rest x0 y0 p1 S Q1) as B1.
  assert (Cl : forall x, 0 <= clamp01 x <= 1) by (intro x; apply (clip_range 0 1); lra).
  exists (fun rho => interp_from x0 y0 rest (clamp01 rho)), L. split; [exact PL|]. split.
  - intro rho. cbn [value]. change (clip 0 1 rho) with (clamp01 rho). specialize (Cl rho). unfold interp1d_call. destruct (Rltb_spec (clamp01 rho) x0); [lra|]. destruct (Rltb_spec (last_x x0 rest) (clamp01 rho)); [lra|]. cbn [bind]. f_equal. ring.
  - intros x y. eapply Rle_trans; [apply K; [pose proof (Cl x)|pose proof (Cl y)]; lra|]. apply Rmult_le_compat_l; [exact PL|]. apply clamp01_near.
Qed.
Lemma lipschitz_continuity f L : 0 <= L -> (forall x y, Rabs (f x - f y) <= L * Rabs (x - y)) -> continuity f.
Proof.
  intros PL K x eps He. exists (eps / (L + 1)). assert (P : 0 < eps / (L + 1)) by (apply Rdiv_lt_0_compat; lra). split; [exact P|]. intros y [_ D]. change (Rabs (y - x) < eps / (L + 1)) in D. change (Rabs (f y - f x) < eps).
  eapply Rle_lt_trans; [apply K|]. set (d := eps / (L + 1)) in *. assert ((L + 1) * d = eps) by (unfold d; field; lra). assert (L * Rabs (y - x) <= L * d) by (apply Rmult_le_compat_l; lra). lra.
Qed.

(** ** The emission of a plasma with continuous profiles *)
Lemma reactants r : exists a b products, equation (label r) = Some ([a; b], products).
Proof. destruct r; vm_compute; eauto. Qed.
Lemma read_clamp h p x : read h p x = read h p (clamp01 x).
Proof. unfold read. destruct (nth_error h p); [|reflexivity]. apply C18_clamped. Qed.
Lemma read_fun h p : (forall x, no_jump (fun _ => True) (fun x v => read h p x = Ok v) x) ->
  exists f, (forall x, read h p x = Ok (f x)) /\ continuity f /\ forall x, f x = f (clamp01 x).
Proof.
  intro H. assert (U : forall x v v', read h p x = Ok v -> read h p x = Ok v' -> v = v') by congruence.
  pose proof (no_jump_fun _ U H) as Ex. set (f := fun x => match read h p x with Ok v => v | _ => 0 end).
  assert (F : forall x, read h p x = Ok (f x)) by (intro x; unfold f; destruct (Ex x) as [v ->]; reflexivity). exists f. split; [exact F|]. split; [exact (no_jump_continuous _ f U F H)|].
  intro x. unfold f. now rewrite <- read_clamp.
Qed.
(** Continuous and constant outside [0,1]: uniformly continuous. *)
Lemma clamped_uniform g : (forall x, 0 <= x <= 1 -> continuity_pt g x) -> (forall x, g x = g (clamp01 x)) -> forall eps, 0 < eps -> exists del, 0 < del /\ forall x y, Rabs (x - y) < del -> Rabs (g x - g y) < eps.
Proof.
  intros C G eps He. destruct (Heine g (fun c => 0 <= c <= 1) (compact_P3 0 1) (fun x Hx => C x Hx) (mkposreal eps He)) as (del & K). exists del. split; [apply cond_pos|]. intros x y D. rewrite (G x), (G y).
  apply K; [apply (clip_range 0 1); lra|apply (clip_range 0 1); lra|]. eapply Rle_lt_trans; [apply clamp01_near|exact D].
Qed.
Lemma pair_density_continuous (fd ft fh : R -> R) a b x : continuity fd -> continuity ft -> continuity fh -> continuity_pt (fun y => pair_density (fuel (fd y) (ft y) (fh y)) a b) x.
Proof.
  intros Cd Ct Ch. assert (C : forall k, continuity (fun _ : R => k)) by (intros k; apply continuity_const; intros ? ?; reflexivity).
  assert (F : forall n, continuity (fun y => fuel (fd y) (ft y) (fh y) n)) by (intros []; cbn [fuel]; auto).
  unfold pair_density. destruct (nuclide_eq_dec a b).
  - apply (continuity_pt_mult (fun y => fuel (fd y) (ft y) (fh y) a * fuel (fd y) (ft y) (fh y) b) (fun _ => / (1 + 1))); [|apply C]. apply (continuity_pt_mult (fun y => fuel (fd y) (ft y) (fh y) a) (fun y => fuel (fd y) (ft y) (fh y) b)); apply F.
  - apply (continuity_pt_mult (fun y => fuel (fd y) (ft y) (fh y) a * fuel (fd y) (ft y) (fh y) b) (fun _ => / (1 + 0))); [|apply C]. apply (continuity_pt_mult (fun y => fuel (fd y) (ft y) (fh y) a) (fun y => fuel (fd y) (ft y) (fh y) b)); apply F.
Qed.
Lemma smooth_emission m u h tr fm meth r X Zlo Zhi psi : physical_masses m -> 0 < amu_kg u -> 0 < keV_J u ->
  uniformly_continuous X Zlo Zhi psi -> (forall x z, mpl_inside (fm_lcfs fm) (x, z) = true -> fm_psi_norm fm (x, z) = Ok (psi x z)) ->
  (forall p, In p [temp_prof tr; d_prof tr; t_prof tr; he3_prof tr] -> forall x, no_jump (fun _ => True) (fun x v => read h p x = Ok v) x) ->
  (forall rho T, 0 <= rho <= 1 -> read h (temp_prof tr) rho = Ok T -> regular r meth T) ->
  exists rate, emission m u h tr fm meth r rate /\ uniformly_continuous X Zlo Zhi rate.
Proof.
  intros Hm Hu Hk Hpsi Epsi Hp HT. destruct (reactivity_fun m u r meth Hm Hu Hk) as (sv & Sv).
  destruct (read_fun h (temp_prof tr)) as (fT & RT & CT & KT); [apply Hp; cbn; auto|]. destruct (read_fun h (d_prof tr)) as (fd & Rd & Cd & Kd); [apply Hp; cbn; auto|].
  destruct (read_fun h (t_prof tr)) as (ft & Rt & Ct & Kt); [apply Hp; cbn; auto|]. destruct (read_fun h (he3_prof tr)) as (fh & Rh & Ch & Kh); [apply Hp; cbn; auto|].
  destruct (reactants r) as (a & b & prods & Eq).
  assert (Reg : forall x, regular r meth (fT x)) by (intro x; rewrite KT; apply (HT (clamp01 x)); [apply (clip_range 0 1); lra|apply RT]).
  set (g := fun y => pair_density (fuel (fd y) (ft y) (fh y)) a b * sv (fT y)).
  assert (Cg : forall x, continuity_pt g x).
  { intro x. apply (continuity_pt_mult (fun y => pair_density (fuel (fd y) (ft y) (fh y)) a b) (fun y => sv (fT y))); [now apply pair_density_continuous|].
    apply (continuity_pt_comp fT sv); [apply CT|]. apply Sv, Reg. }
  assert (Kg : forall x, g x = g (clamp01 x)) by (intro x; unfold g; now rewrite (KT x), (Kd x), (Kt x), (Kh x) at 1).
  exists (fun x z => g (psi x z)). split.
  - intros x z psi0 T d t h3 sv0 w a0 b0 prods0 In_ E1 E2 E3 E4 E5 E6 E7. rewrite (Epsi x z In_) in E1. injection E1 as <-. rewrite RT in E2. rewrite Rd in E3. rewrite Rt in E4. rewrite Rh in E5. rewrite Eq in E7.
    injection E2 as <-. injection E3 as <-. injection E4 as <-. injection E5 as <-. injection E7 as <- <- _. unfold g. f_equal. destruct (Sv _ (Reg (psi x z))) as ((w' & Ew) & _). rewrite E6 in Ew. now injection Ew.
  - intros eps He. destruct (clamped_uniform g (fun x _ => Cg x) Kg eps He) as (d1 & P1 & K1). destruct (Hpsi d1 P1) as (d2 & P2 & K2). exists d2. split; [exact P2|]. intros. apply K1. now apply K2.
Qed.

(** The constructor succeeds, for temperatures at which the reactivity is defined. *)
Lemma reactivity_regular m u temps r meth : physical_masses m -> 0 < amu_kg u -> 0 < keV_J u -> temps <> [] -> (forall T, In T temps -> regular r meth T) ->
  exists v w, reactivity m u temps (IReact r) meth = Ok (v, w).
Proof.
  intros Hm Hu Hk Hn HT. destruct (uses_fit_dec r meth) as [U|U].
  - destruct U as [Hf N]. destruct (C15_beyond_range m u r temps meth Hf) as (w & E & _); [destruct meth; [congruence|now left|now right]|exact Hn| |eauto].
    intros -> T Hi. left. apply (HT T Hi); [now split|reflexivity].
  - destruct (cross_section_full m u r Hm Hu) as (xs & s & E & M & P & Tb & Hs). destruct (from_xs_ok u xs s temps Hk P Hs) as [R1 _]; [intros T Hi; now apply (HT T Hi)|].
    unfold reactivity. cbn [parse_reaction bind]. assert (C : meth <> MXS -> bosch_hale_coefficients r = None) by (intro; apply not_fitted; intro; apply U; now split).
    destruct meth; [|rewrite C by discriminate|rewrite C by discriminate]; rewrite E; cbn [bind]; rewrite R1; cbn [bind]; eauto.
Qed.
Lemma add_regular m u temps ds vols meth l : physical_masses m -> 0 < amu_kg u -> 0 < keV_J u -> temps <> [] -> (forall T r, In T temps -> In r l -> regular r meth T) ->
  forall acc, exists out, add_reactions m u temps ds vols meth acc l = Ok out.
Proof.
  intros Hm Hu Hk Tn. induction l as [|r l IH]; intros Tr acc; cbn [add_reactions]; [eauto|].
  destruct acc as [[[st nr] nn] ws]. unfold add_reaction, density_weighted_reactivity. cbn [parse_reaction bind].
  destruct (reactivity_regular m u temps r meth Hm Hu Hk Tn) as (v & w & E); [intros T Hi; apply Tr; [exact Hi|now left]|]. rewrite E. cbn [bind fst snd]. apply IH. intros T r' Hi Hr. apply Tr; [exact Hi|now right].
Qed.
Lemma make_regular m u inside h tr fm arg side meth cs types : physical_masses m -> 0 < amu_kg u -> 0 < keV_J u -> parse_source_type arg = Ok types ->
  sample_space_2d inside (fm_lcfs fm) (fm_o fm) side = Ok cs -> cs <> [] -> (forall c, In c cs -> exists psi, fm_psi_norm fm (sx c, sz c) = Ok psi) ->
  (forall psi, exists T, read h (temp_prof tr) psi = Ok T /\ forall r, In r types -> regular r meth T) ->
  (forall p psi, In p [d_prof tr; t_prof tr; he3_prof tr] -> exists n, read h p psi = Ok n) ->
  exists s ws, make_source m u inside h tr fm arg side None meth = Ok (s, ws) /\ Source.cells s = cs /\ source_type s = types.
Proof.
  intros Hm Hu Hk Et Es Hc Hpsi HT Hp.
  assert (M : forall {A B} (f : A -> res B) l, (forall a, In a l -> exists b, f a = Ok b) -> exists bs, mapM f l = Ok bs).
  { intros A B f l. induction l as [|a l IH]; intro H; cbn; [eauto|]. destruct (H a (or_introl eq_refl)) as [b ->]. destruct IH as [bs ->]; [intros; apply H; now right|]. cbn. eauto. }
  unfold make_source. rewrite Et. cbn [bind]. rewrite Es. cbn [bind].
  destruct (M _ _ (fun c => fm_psi_norm fm (fst (fst c), snd (fst c))) cs) as [psi E1]; [intros c H; now apply Hpsi|]. rewrite E1. cbn [bind].
  destruct (M _ _ (read h (temp_prof tr)) psi) as [temps E2]; [intros c _; destruct (HT c) as (T & E & _); eauto|]. rewrite E2. cbn [bind].
  destruct (M _ _ (read h (d_prof tr)) psi) as [dd E3]; [intros c _; apply Hp; cbn; auto|]. rewrite E3. cbn [bind].
  destruct (M _ _ (read h (t_prof tr)) psi) as [dt E4]; [intros c _; apply Hp; cbn; auto|]. rewrite E4. cbn [bind].
  destruct (M _ _ (read h (he3_prof tr)) psi) as [dh E5]; [intros c _; apply Hp; cbn; auto|]. rewrite E5. cbn [bind].
  assert (Tn : temps <> []).
  { apply mapM_Ok_length in E1, E2. intros ->. destruct cs; [congruence|]. cbn in *. congruence. }
  assert (Tr : forall T r, In T temps -> In r types -> regular r meth T).
  { intros T r Hi Hr. apply mapM_Ok_Forall2 in E2. clear -E2 Hi HT Hr. induction E2 as [|x y l l' Hxy _ IH]; [contradiction|]. destruct Hi as [<-|Hi]; [|now apply IH]. destruct (HT x) as (T & E & Q). rewrite Hxy in E. injection E as <-. now apply Q. }
  match goal with |- context [add_reactions m u temps ?ds ?vols meth ?acc types] => assert (A : exists out, add_reactions m u temps ds vols meth acc types = Ok out) by (now apply add_regular) end.
  destruct A as [[[[st nr] nn] ws] ->]. cbn [bind]. eexists _, _. split; [reflexivity|]. split; reflexivity.
Qed.
