(** Property theorems C13-C17 (reactivity). *)
From Verif Require Import Base Reactions SpecReactions ReactionsProofs Profile SpecProfile ProfileProofs
  XsData Reactivity SpecReactivity ReactivityProofs.

(** C13: n1 n2 / (1 + delta) <sigma v>, by the two nuclides on the left of the reaction's label. *)
Theorem C13_density_weighting : forall m u temps ds arg r meth v w,
  names arg r -> length ds = length temps -> reactivity m u temps arg meth = Ok (v, w) ->
  exists a b products out,
    equation (label r) = Some ([a; b], products) /\
    density_weighted_reactivity m u temps ds arg meth = Ok (out, w) /\ length out = length temps /\
    forall i d x, nth_error ds i = Some d -> nth_error v i = Some x ->
      nth_error out i = Some (pair_density (fuel (nd d) (nt d) (nhe3 d)) a b * x).
Proof.
  intros m u temps ds arg r meth v w Hn Hl E.
  assert (Pr : parse_reaction arg = Ok r) by now apply parse_reaction_iff.
  assert (Lv : length v = length temps).
  { unfold reactivity in E. rewrite Pr in E. cbn [bind] in E.
    assert (X : forall w0 : list warning, (do xs <- cross_section m u r; do v <- reactivity_from_xs u temps xs; Ok (v, w0)) = Ok (v, w) -> length v = length temps).
    { intros w0. destruct (cross_section m u r) as [xs| |]; cbn [bind]; try discriminate.
      destruct (reactivity_from_xs u temps xs) as [v'| |] eqn:Ev; cbn [bind]; try discriminate. intro Q; injection Q as <- <-.
      unfold reactivity_from_xs in Ev. destruct (mapM _ t_grid_kev); cbn [bind] in Ev; try discriminate.
      now apply mapM_Ok_length in Ev. }
    assert (Y : reactivity_bosch_hale temps r = Ok (v, w) -> length v = length temps).
    { unfold reactivity_bosch_hale. destruct (bosch_hale_coefficients r); [|discriminate]. unfold channel_bosch_hale.
      destruct (np_min temps); cbn [bind]; try discriminate. destruct (np_max temps); cbn [bind]; try discriminate.
      destruct (mapM _ temps) as [v'| |] eqn:Ev; cbn [bind]; try discriminate. intro Q; injection Q as <- <-.
      now apply mapM_Ok_length in Ev. }
    destruct meth; [eapply X; eauto| |]; destruct (bosch_hale_coefficients r); eauto. }
  assert (Ei : reactivity m u temps (IReact r) meth = Ok (v, w)).
  { rewrite <- E. unfold reactivity. rewrite Pr. reflexivity. }
  assert (K : forall a b, (forall d t h, n1_n2 r d t h = pair_density (fuel d t h) a b) ->
     exists out, density_weighted_reactivity m u temps ds arg meth = Ok (out, w) /\ length out = length temps /\
     forall i d x, nth_error ds i = Some d -> nth_error v i = Some x ->
      nth_error out i = Some (pair_density (fuel (nd d) (nt d) (nhe3 d)) a b * x)).
  { intros a b H. unfold density_weighted_reactivity. rewrite Pr. cbn [bind]. rewrite Ei. cbn [bind fst snd].
    eexists; split; [reflexivity|]. split; [rewrite map2_length_eq; congruence|].
    intros i d x Hd Hx. rewrite <- H. now apply (map2_nth_error (fun d v => n1_n2 r (nd d) (nt d) (nhe3 d) * v)). }
  destruct r.
  - destruct (K nD nT) as [out H]; [intros; unfold n1_n2, pair_density, fuel; cbn; field|]. exists nD, nT, [nHe4; nN], out. split; [reflexivity|exact H].
  - destruct (K nD nD) as [out H]; [intros; unfold n1_n2, pair_density, fuel; cbn; field|]. exists nD, nD, [nHe3; nN], out. split; [reflexivity|exact H].
  - destruct (K nT nT) as [out H]; [intros; unfold n1_n2, pair_density, fuel; cbn; field|]. exists nT, nT, [nHe4; nN; nN], out. split; [reflexivity|exact H].
  - destruct (K nD nD) as [out H]; [intros; unfold n1_n2, pair_density, fuel; cbn; field|]. exists nD, nD, [nT; nP], out. split; [reflexivity|exact H].
  - destruct (K nD nHe3) as [out H]; [intros; unfold n1_n2, pair_density, fuel; cbn; field|]. exists nD, nHe3, [nHe4; nP], out. split; [reflexivity|exact H].
Qed.
Print Assumptions C13_density_weighting.

Definition scale_dens (k : R) (d : dens) : dens := {| nd := k * nd d; nt := k * nt d; nhe3 := k * nhe3 d |}.
Theorem C13_quadratic_in_density : forall m u temps ds arg meth out w k,
  density_weighted_reactivity m u temps ds arg meth = Ok (out, w) ->
  density_weighted_reactivity m u temps (map (scale_dens k) ds) arg meth = Ok (map (fun x => k * k * x) out, w).
Proof.
  intros m u temps ds arg meth out w k. unfold density_weighted_reactivity.
  destruct (parse_reaction arg) as [r| |]; cbn [bind]; try discriminate.
  destruct (reactivity m u temps (IReact r) meth) as [[v w']| |]; cbn [bind fst snd]; try discriminate.
  intro E; injection E as <- <-. f_equal. f_equal. clear.
  revert v; induction ds as [|d ds IH]; intros [|x v]; cbn [map map2]; try reflexivity.
  rewrite IH. f_equal. destruct r; cbn; field.
Qed.
Print Assumptions C13_quadratic_in_density.

(** 50:50 fuel maximises the D-T rate at given fuel density n. *)
Definition dt_mix (n f : R) : dens := {| nd := f * n; nt := (1 - f) * n; nhe3 := 0 |}.
Theorem C13_dt_best_at_5050 : forall m u T n f meth out w out' w',
  (forall v w, reactivity m u [T] (IReact DT) meth = Ok (v, w) -> Forall (fun x => 0 <= x) v) ->
  density_weighted_reactivity m u [T] [dt_mix n f] (IReact DT) meth = Ok ([out], w) ->
  density_weighted_reactivity m u [T] [dt_mix n (1 / 2)] (IReact DT) meth = Ok ([out'], w') ->
  out <= out' /\ (0 < out' -> f <> 1 / 2 -> out < out').
Proof.
  intros m u T n f meth out w out' w' Hp. unfold density_weighted_reactivity. cbn [parse_reaction bind].
  destruct (reactivity m u [T] (IReact DT) meth) as [[v w0]| |]; cbn [bind fst snd]; try discriminate.
  specialize (Hp v w0 eq_refl). destruct v as [|x v]; [discriminate|]. inversion Hp as [|? ? Hx _]; subst.
  cbn [map2 dt_mix nd nt nhe3 n1_n2]. intros E E'. injection E as <- _. injection E' as <- _.
  assert (S : 0 <= n * n * x) by (apply Rmult_le_pos; [nra|exact Hx]).
  assert (A : f * n * ((1 - f) * n) * x = (f * (1 - f)) * (n * n * x)) by ring.
  assert (B : 1 / 2 * n * ((1 - 1 / 2) * n) * x = 1 / 4 * (n * n * x)) by field. rewrite A, B.
  pose proof (Rle_0_sqr (f - 1 / 2)) as Q. unfold Rsqr in Q. split; [nra|].
  intros P Hf. assert (0 < (f - 1 / 2) * (f - 1 / 2)) by nra. nra.
Qed.
Print Assumptions C13_dt_best_at_5050.

(** C14 *)
Theorem C14_bosch_hale_in_range : forall m u r temps meth,
  fitted r -> meth = MBoschHale \/ meth = MAuto -> temps <> [] -> (forall T, In T temps -> T <= 100) ->
  exists w, reactivity m u temps (IReact r) meth = Ok (map (published_SI r) temps, w) /\
    (forall T, In T temps -> (T <= 0 -> published_SI r T = 0) /\ (0 < T -> 0 < published_SI r T)) /\
    (w = [] <-> forall T, In T temps -> 0.2 <= T <= 100) /\
    (w <> [] -> exists lo hi, w = [WOutOfRange lo hi]).
Proof.
  intros m u r temps meth Hf Hm Hn HT.
  assert (Hg : forall T, In T temps -> bh_good r T) by (intros T H; right; left; specialize (HT T H); lra).
  destruct (bh_ok r temps Hf Hn Hg) as (w & E & W1 & W2). exists w.
  assert (D : (exists T, In T temps /\ (T < 0.2 \/ 100 < T)) \/ (forall T, In T temps -> 0.2 <= T <= 100)).
  { clear. induction temps as [|t ts IH]; [right; intros _ []|]. destruct IH as [(T & H1 & H2)|IH]; [left; exists T; cbn; auto|].
    destruct (Rlt_le_dec t 0.2); [left; exists t; cbn; auto|]. destruct (Rlt_le_dec 100 t); [left; exists t; cbn; auto|].
    right. intros T [<-|H]; auto. }
  split; [|split; [|split]].
  - destruct (fitted_coeffs r Hf) as (C & _). unfold reactivity. cbn [parse_reaction bind].
    destruct Hm as [-> | ->]; rewrite C; exact E.
  - intros T H. split; [|apply fitted_point; auto]. intro L. unfold published_SI. destruct (Rle_dec T 0); [reflexivity|lra].
  - split; [|exact W2]. intros ->. destruct D as [D|D]; [|exact D]. destruct (W1 D) as (lo & hi & Q & _). discriminate.
  - intro H. destruct D as [D|D]; [|specialize (W2 D); congruence]. destruct (W1 D) as (lo & hi & Q & _). eauto.
Qed.
Print Assumptions C14_bosch_hale_in_range.

Theorem C14_empty_array_rejected : forall m u r meth, fitted r -> meth = MBoschHale \/ meth = MAuto ->
  reactivity m u [] (IReact r) meth = Err EValue.
Proof.
  intros m u r meth Hf Hm. destruct (fitted_coeffs r Hf) as (C & _). unfold reactivity. cbn [parse_reaction bind].
  destruct Hm as [-> | ->]; rewrite C; unfold reactivity_bosch_hale; rewrite C; reflexivity.
Qed.
Print Assumptions C14_empty_array_rejected.

(** C15: above the range. *)
Theorem C15_beyond_range : forall m u r temps meth,
  fitted r -> meth = MBoschHale \/ meth = MAuto -> temps <> [] ->
  (r = DDn -> forall T, In T temps -> T <= 965 \/ 2717 <= T) ->
  exists w, reactivity m u temps (IReact r) meth = Ok (map (published_SI r) temps, w) /\
    (forall T, In T temps -> 0 < T -> 0 < published_SI r T) /\
    ((exists T, In T temps /\ 100 < T) -> exists lo hi, w = [WOutOfRange lo hi]).
Proof.
  intros m u r temps meth Hf Hm Hn HT.
  assert (Hg : forall T, In T temps -> bh_good r T).
  { intros T H. destruct (reaction_eq_dec r DDn) as [->|N]; [right; now apply HT|now left]. }
  destruct (bh_ok r temps Hf Hn Hg) as (w & E & W1 & W2). exists w. split; [|split].
  - destruct (fitted_coeffs r Hf) as (C & _). unfold reactivity. cbn [parse_reaction bind].
    destruct Hm as [-> | ->]; rewrite C; exact E.
  - intros T H. apply fitted_point; auto.
  - intros (T & H1 & H2). destruct W1 as (lo & hi & Q & _); [exists T; auto|]. eauto.
Qed.
Print Assumptions C15_beyond_range.

(** D-D(n) between 966 and 2716 keV: not a finite number (and no exception). *)
Theorem C15_ddn_nonfinite_refuted : forall m u temps meth, meth = MBoschHale \/ meth = MAuto ->
  (forall T, In T temps -> T <= 965 \/ 966 <= T <= 2716 \/ 2717 <= T) ->
  (exists T, In T temps /\ 966 <= T <= 2716) ->
  reactivity m u temps (IReact DDn) meth = NonFinite.
Proof.
  intros m u temps meth Hm HT (T & Hi & HR).
  assert (B : forall T, 966 <= T <= 2716 -> bh_point bh_DDn T = NonFinite).
  { intros t Ht. destruct (DDn_poly_mid t Ht). apply bh_point_bad; try assumption; [lra|cbn [bh_DDn bg]; lra]. }
  assert (N : mapM (bh_point bh_DDn) temps = NonFinite).
  { apply mapM_NonFinite; [|exists T; split; [exact Hi|now apply B]]. intros t Ht. destruct (HT t Ht) as [H|[H|H]].
    - left. destruct (fitted_point DDn t) as [E _]; [unfold fitted; auto|right; left; exact H|]. eauto.
    - right. now apply B.
    - left. destruct (fitted_point DDn t) as [E _]; [unfold fitted; auto|right; right; exact H|]. eauto. }
  unfold reactivity. cbn [parse_reaction bind bosch_hale_coefficients].
  assert (F : reactivity_bosch_hale temps DDn = NonFinite).
  { unfold reactivity_bosch_hale, bosch_hale_coefficients, channel_bosch_hale. destruct temps as [|t ts]; [contradiction|].
    cbn [np_min np_max bind]. rewrite N. reflexivity. }
  destruct Hm as [-> | ->]; exact F.
Qed.
Print Assumptions C15_ddn_nonfinite_refuted.

Example C14_C15_example : forall m u,
  (exists v, reactivity m u [10] (IReact DT) MAuto = Ok ([v], []) /\ 0 < v) /\
  reactivity m u [1500] (IReact DDn) MAuto = NonFinite.
Proof.
  intros m u. split.
  - destruct (C14_bosch_hale_in_range m u DT [10] MAuto) as (w & E & P & W & _);
      [unfold fitted; auto|auto|discriminate|intros T [<-|[]]; lra|].
    assert (w = []) as -> by (apply W; intros T [<-|[]]; lra).
    exists (published_SI DT 10). split; [exact E|]. apply (P 10); [now left|lra].
  - apply C15_ddn_nonfinite_refuted; [auto|intros T [<-|[]]; lra|exists 1500; split; [now left|lra]].
Qed.

(** C16 *)
Theorem C16_cross_section_reactivity : forall m u r temps, physical_masses m -> 0 < amu_kg u -> 0 < keV_J u ->
  (forall T, In T temps -> 0 < T) ->
  exists mu sigma,
    mu = collider m r * target m r / (collider m r + target m r) * amu_kg u /\
    (forall E, 1 <= E <= 1000 -> 0 < sigma E) /\
    reactivity m u temps (IReact r) MXS = Ok (map (fun T => trapezoid_rule 1000 (fun i => log_node i * keV_J u)
       (fun i => maxwell_integrand mu (T * keV_J u) (sigma (log_node i)) (log_node i * keV_J u))) temps, []) /\
    (forall T, In T temps -> 0 < trapezoid_rule 1000 (fun i => log_node i * keV_J u)
       (fun i => maxwell_integrand mu (T * keV_J u) (sigma (log_node i)) (log_node i * keV_J u))) /\
    (* sigma is the straight-line interpolation of the shipped table, all rows but the last *)
    (exists table, map (fun p => (IZR (fst p), IZR (snd p))) (removelast (rows_of (file r))) = table /\
       forall E, 1 <= E <= 1000 ->
       interp_result (map (fun p => (fst p / 10 ^ 9 * (target m r / (collider m r + target m r)) * 1000, snd p / 10 ^ 43 * 1e-28)) table)
         E (Ok (sigma E))).
Proof.
  intros m u r temps Hm Hu Hk HT. destruct (cross_section_full m u r Hm Hu) as (xs & s & E & M & P & Tb & Hs).
  exists (reduced_mass xs), s. destruct (from_xs_ok u xs s temps Hk P Hs HT) as [R1 R2].
  split; [exact M|]. split; [intros; now apply Hs|]. split; [|split; [exact R2|]].
  - unfold reactivity. cbn [parse_reaction bind]. rewrite E. cbn [bind]. rewrite R1. reflexivity.
  - eexists; split; [reflexivity|]. intros E0 HE. rewrite map_map.
    destruct (Hs E0 HE) as [Q _]. rewrite <- Q. rewrite Tb.
    change (fun x : Z * Z => (fst (IZR (fst x), IZR (snd x)) / 10 ^ 9 * (target m r / (collider m r + target m r)) * 1000,
       snd (IZR (fst x), IZR (snd x)) / 10 ^ 43 * 1e-28)) with
      (fun x : Z * Z => (IZR (fst x) / 10 ^ 9 * (target m r / (collider m r + target m r)) * 1000, IZR (snd x) / 10 ^ 43 * 1e-28)).
    replace (map (fun x : Z * Z => (IZR (fst x) / 10 ^ 9 * (target m r / (collider m r + target m r)) * 1000, IZR (snd x) / 10 ^ 43 * 1e-28))
      (removelast (rows_of (file r)))) with (map (scale_row (target m r / (collider m r + target m r))) (removelast (rows_of (file r)))).
    2:{ apply map_ext. intro p. unfold scale_row. f_equal. lra. }
    apply interp1d_call_char.
    pose proof (file_rows_ok r) as F. destruct (removelast (rows_of (file r))) as [|[e s0] l]; [constructor|].
    cbn [file_ok] in F. rewrite !andb_true_iff in F. destruct F as [[[_ _] F] _].
    cbn [map]. unfold scale_row at 1; cbn [fst snd]. apply rtable_sorted, scale_rtable; [|exact F].
    destruct Hm as (HD & HTm & HH). apply Rdiv_lt_0_compat; destruct r; cbn [collider target]; lra.
Qed.
Print Assumptions C16_cross_section_reactivity.

(** Unlike the Bosch-Hale fit, T <= 0 gives a non-finite result. *)
Theorem C16_zero_temperature : forall m u r temps, physical_masses m -> 0 < amu_kg u -> 0 < keV_J u ->
  (exists T, In T temps /\ T <= 0) -> reactivity m u temps (IReact r) MXS = NonFinite.
Proof.
  intros m u r temps Hm Hu Hk HT. destruct (cross_section_ok m u r Hm Hu) as (xs & E & P & C).
  unfold reactivity. cbn [parse_reaction bind]. rewrite E. cbn [bind].
  destruct (from_xs_any u xs temps Hk P C) as [_ N]. rewrite (N HT). reflexivity.
Qed.
Print Assumptions C16_zero_temperature.

(** Linear in the cross section. *)
Theorem C16_linear : forall u mu s1 s2 a b T v1 v2, 0 < mu -> 0 < keV_J u -> 0 < T ->
  xs_point u mu (fun E => Ok (s1 E)) T = Ok v1 -> xs_point u mu (fun E => Ok (s2 E)) T = Ok v2 ->
  xs_point u mu (fun E => Ok (a * s1 E + b * s2 E)) T = Ok (a * v1 + b * v2).
Proof.
  intros u mu s1 s2 a b T v1 v2 Hm Hk HT.
  rewrite (xs_point_ok u mu _ s1 T) by auto. rewrite (xs_point_ok u mu _ s2 T) by auto.
  rewrite (xs_point_ok u mu _ (fun E => a * s1 E + b * s2 E) T) by auto.
  intros E1 E2. injection E1 as <-. injection E2 as <-. f_equal. unfold trapezoid_rule.
  rewrite <- !sum_upto_scale, <- sum_upto_plus. apply sum_upto_ext. intros i _. unfold maxwell_integrand. field.
  split; [pose proof (sqrt_lt_R0 (T * keV_J u) ltac:(nra)); lra|nra].
Qed.
Print Assumptions C16_linear.

(** C17 *)
Theorem C17_dispatch : forall m u temps r,
  (* AUTO: the fit exactly for the reactions that have one *)
  (fitted r -> reactivity m u temps (IReact r) MAuto = reactivity_bosch_hale temps r /\
               reactivity m u temps (IReact r) MBoschHale = reactivity_bosch_hale temps r) /\
  (~ fitted r -> reactivity m u temps (IReact r) MAuto = reactivity m u temps (IReact r) MXS /\
     forall v w, reactivity m u temps (IReact r) MXS = Ok (v, w) ->
       reactivity m u temps (IReact r) MBoschHale = Ok (v, [WNoBoschHale r])) /\
  (* XS never warns *)
  (forall v w, reactivity m u temps (IReact r) MXS = Ok (v, w) -> w = []).
Proof.
  intros m u temps r. unfold reactivity. cbn [parse_reaction bind].
  assert (X : forall (w0 : list warning) v w, (do xs <- cross_section m u r; do v <- reactivity_from_xs u temps xs; Ok (v, w0)) = Ok (v, w) ->
    w = w0 /\ exists xs, cross_section m u r = Ok xs /\ reactivity_from_xs u temps xs = Ok v).
  { intros w0 v w. destruct (cross_section m u r) as [xs| |]; cbn [bind]; try discriminate.
    destruct (reactivity_from_xs u temps xs) eqn:Ev; cbn [bind]; try discriminate. intro Q; injection Q as <- <-. eauto. }
  split; [|split].
  - intro Hf. destruct (fitted_coeffs r Hf) as (C & _). rewrite C. auto.
  - intro Hf. rewrite (not_fitted r Hf). split; [reflexivity|]. intros v w H. apply X in H. destruct H as (-> & xs & E1 & E2).
    rewrite E1. cbn [bind]. rewrite E2. reflexivity.
  - intros v w H. now apply X in H.
Qed.
Print Assumptions C17_dispatch.

Theorem C17_reactivity_error : forall m u temps arg meth, physical_masses m -> 0 < amu_kg u -> 0 < keV_J u ->
  (reactivity m u temps arg meth = Err EReactivity <-> ~ exists r, names arg r).
Proof.
  intros m u temps arg meth Hm Hu Hk. split.
  - intros E [r Hn]. apply parse_reaction_iff in Hn. unfold reactivity in E. rewrite Hn in E. cbn [bind] in E.
    destruct (cross_section_ok m u r Hm Hu) as (xs & Ex & P & C). rewrite Ex in E. cbn [bind] in E.
    destruct (from_xs_any u xs temps Hk P C) as [A _].
    assert (B : reactivity_bosch_hale temps r = Err EReactivity -> bosch_hale_coefficients r = None).
    { unfold reactivity_bosch_hale. destruct (bosch_hale_coefficients r) as [d|]; [|reflexivity]. unfold channel_bosch_hale.
      destruct temps as [|t ts]; [discriminate|]. cbn [np_min np_max bind].
      destruct (mapM_ok_or_nonfinite (bh_point d) (t :: ts)) as [[v Q]|Q]; [|rewrite Q; discriminate|rewrite Q; discriminate].
      intros T _. apply bh_point_tame. }
    destruct A as [[v A]|A]; rewrite A in E; cbn [bind] in E; destruct meth; try discriminate;
    destruct (bosch_hale_coefficients r) eqn:Q; try discriminate; apply B in E; discriminate.
  - intro H. unfold reactivity. rewrite (proj2 (parse_reaction_err arg) H); reflexivity.
Qed.
Print Assumptions C17_reactivity_error.

(** Masses and units near their true values meet the hypotheses of C16 and C17. *)
Definition nominal_masses : masses :=
  {| mD := 2.014; mT := 3.016; mHe := 4.0026; mHe3 := 3.016; mn := 1.0087; mp := 1.0073; me := 0.00055; amu_J := 1.4924e-10 |}.
Definition nominal_units : units := {| amu_kg := 1.6605e-27; keV_J := 1.6022e-16 |}.
Example C16_C17_example : physical_masses nominal_masses /\ 0 < amu_kg nominal_units /\ 0 < keV_J nominal_units /\
  exists v, reactivity nominal_masses nominal_units [10] (IReact TT) MAuto = Ok ([v], []) /\ 0 < v.
Proof.
  assert (Hm : physical_masses nominal_masses) by (unfold physical_masses; cbn [nominal_masses mD mT mHe3]; lra).
  assert (Hu : 0 < amu_kg nominal_units) by (cbn [nominal_units amu_kg]; lra).
  assert (Hk : 0 < keV_J nominal_units) by (cbn [nominal_units keV_J]; lra).
  split; [exact Hm|]. split; [exact Hu|]. split; [exact Hk|].
  destruct (C16_cross_section_reactivity nominal_masses nominal_units TT [10] Hm Hu Hk) as (mu & s & _ & _ & E & P & _);
    [intros T [<-|[]]; lra|].
  destruct (C17_dispatch nominal_masses nominal_units [10] TT) as (_ & N & _).
  destruct N as [N _]; [intros [H|[H|H]]; discriminate|]. rewrite N, E. eexists; split; [reflexivity|]. apply P. now left.
Qed.
