(** Property theorems C23-C27 (fuel composition, transport information, JETTO). *)
From Coq Require Import ZArith.
From Flocq Require Import IEEE754.BinarySingleNaN.
From Verif Require Import Base Profile SpecProfile ProfileProofs Transport SpecTransport TransportProofs
  FloatComp FloatCompProofs FloatCompAcc.

(** C23: exact arithmetic. *)
Theorem C23_renormalised : forall D T H c warned,
  fuel_composition D T H = Ok (c, warned) ->
  fD c + fT c + fHe3 c = 1 /\
  (D + T + H = 1 -> c = {| fD := D; fT := T; fHe3 := H |} /\ warned = false) /\
  (D + T + H <> 1 -> warned = true) /\
  (* ratios *)
  fD c * T = fT c * D /\ fD c * H = fHe3 c * D /\ fT c * H = fHe3 c * T /\
  (* signs *)
  (0 < D + T + H -> (0 <= D -> 0 <= fD c) /\ (0 <= T -> 0 <= fT c) /\ (0 <= H -> 0 <= fHe3 c)).
Proof.
  intros D T H c w E.
  destruct (fuel_composition_cases D T H) as [[S F]|[[S F]|[S [S' F]]]]; rewrite E in F; try discriminate;
  injection F as -> ->; cbn.
  - repeat split; intros; try lra; auto.
  - repeat split; intros; try lra; try (field; assumption); try tauto;
    (apply Rmult_le_pos; [assumption|left; apply Rinv_0_lt_compat; assumption]).
Qed.
Print Assumptions C23_renormalised.

Theorem C23_idempotent : forall D T H c warned, fuel_composition D T H = Ok (c, warned) ->
  fuel_composition (fD c) (fT c) (fHe3 c) = Ok (c, false).
Proof.
  intros D T H c w E. destruct (C23_renormalised D T H c w E) as [S _].
  destruct (fuel_composition_cases (fD c) (fT c) (fHe3 c)) as [[_ F]|[[S' _]|[S' _]]]; try lra.
  rewrite F. destruct c; reflexivity.
Qed.
Print Assumptions C23_idempotent.

(** The only failure: fractions that add up to zero. *)
Theorem C23_zero_sum_rejected : forall D T H,
  (D + T + H = 0 -> fuel_composition D T H = Err EZeroDivision) /\
  (D + T + H <> 0 -> exists c warned, fuel_composition D T H = Ok (c, warned)).
Proof.
  intros D T H.
  destruct (fuel_composition_cases D T H) as [[S F]|[[S F]|[S [S' F]]]]; rewrite F; split; intros; try lra; eauto.
Qed.
Print Assumptions C23_zero_sum_rejected.

Example C23_example : fuel_composition 1 2 1 = Ok ({| fD := 1 / 4; fT := 2 / 4; fHe3 := 1 / 4 |}, true).
Proof.
  destruct (fuel_composition_cases 1 2 1) as [[S F]|[[S F]|[S [S' F]]]]; try lra.
  rewrite F. repeat f_equal; lra.
Qed.

(** C24: the same class in IEEE binary64 (v = false: Python 3.10/3.11; v = true: 3.12 and later). *)
Theorem C24_range : forall v D T H D' T' H' warned,
  is_finite D = true -> is_finite T = true -> is_finite H = true ->
  0 <= B2R D -> 0 <= B2R T -> 0 <= B2R H ->
  fuel_composition64 v D T H = Ok ((D', T', H'), warned) ->
  (is_finite D' = true /\ 0 <= B2R D' <= 1) /\
  (is_finite T' = true /\ 0 <= B2R T' <= 1) /\
  (is_finite H' = true /\ 0 <= B2R H' <= 1).
Proof.
  intros v D T H D' T' H' w FD FT FH PD PT PH E.
  exact (fuel64_range v D T H D' T' H' w (conj FD PD) (conj FT PT) (conj FH PH) E).
Qed.
Print Assumptions C24_range.

Theorem C24_kept_bit_for_bit : forall v D T H,
  (Beqb (py_sum v D T H) f1 = true <-> fuel_composition64 v D T H = Ok ((D, T, H), false)).
Proof.
  intros v D T H. unfold fuel_composition64. destruct (Beqb (py_sum v D T H) f1); cbn; split; try reflexivity; try discriminate.
  destruct (Beqb (py_sum v D T H) f0); discriminate.
Qed.
Print Assumptions C24_kept_bit_for_bit.

(** Each stored fraction is the exact one, D / (D + T + He3), up to 2^-50, hence they add up to 1 within 3 * 2^-50. *)
Theorem C24_accuracy : forall v D T H D' T' H' warned,
  is_finite D = true -> is_finite T = true -> is_finite H = true ->
  0 <= B2R D -> 0 <= B2R T -> 0 <= B2R H ->
  0 < B2R D + B2R T + B2R H <= 2 ^ 1022 ->
  fuel_composition64 v D T H = Ok ((D', T', H'), warned) ->
  Rabs (B2R D' - B2R D / (B2R D + B2R T + B2R H)) <= / 2 ^ 50 /\
  Rabs (B2R T' - B2R T / (B2R D + B2R T + B2R H)) <= / 2 ^ 50 /\
  Rabs (B2R H' - B2R H / (B2R D + B2R T + B2R H)) <= / 2 ^ 50 /\
  Rabs (B2R D' + B2R T' + B2R H' - 1) <= 3 / 2 ^ 50.
Proof.
  intros v D T H D' T' H' w FD FT FH PD PT PH [P L] E.
  destruct (fuel64_accuracy_pow v D T H D' T' H' w (conj FD PD) (conj FT PT) (conj FH PH) (conj P L) E) as (A & B & C).
  unfold total in *. repeat split; try assumption.
  set (S := B2R D + B2R T + B2R H) in *.
  replace (B2R D' + B2R T' + B2R H' - 1) with ((B2R D' - B2R D / S) + (B2R T' - B2R T / S) + (B2R H' - B2R H / S)) by (unfold S; field; fold S; lra).
  eapply Rle_trans; [apply Rabs_triang|]. eapply Rle_trans; [apply Rplus_le_compat_r, Rabs_triang|]. lra.
Qed.
Print Assumptions C24_accuracy.

(** Fractions whose sum overflows are all stored as zero. *)
Theorem C24_overflow_refuted : forall v, exists D T H D' T' H',
  is_finite D = true /\ is_finite T = true /\ is_finite H = true /\ 0 < B2R D /\ 0 < B2R T /\ 0 < B2R H /\
  fuel_composition64 v D T H = Ok ((D', T', H'), true) /\ B2R D' = 0 /\ B2R T' = 0 /\ B2R H' = 0.
Proof.
  intro v. set (X := f64_of_Z (2 ^ 1023)).
  assert (PX : is_finite X = true /\ 0 < B2R X).
  { assert (E : B2SF X = SpecFloat.S754_finite false 4503599627370496 971) by (vm_compute; reflexivity).
    destruct X as [s|s| |s m e b]; try discriminate. cbn in E. injection E as -> -> ->. split; [reflexivity|].
    cbn. apply Float_prop.F2R_gt_0. cbn. lia. }
  exists X, X, X. do 3 eexists. destruct PX as [FX PX]. repeat split; try assumption.
  - unfold fuel_composition64.
    replace (Beqb (py_sum v X X X) f1) with false by (destruct v; vm_compute; reflexivity).
    replace (Beqb (py_sum v X X X) f0) with false by (destruct v; vm_compute; reflexivity). cbn [negb]. reflexivity.
  - replace (py_sum v X X X) with (B754_infinity false : f64) by (destruct v; apply B2SF_inj; vm_compute; reflexivity). destruct X; reflexivity || discriminate.
  - replace (py_sum v X X X) with (B754_infinity false : f64) by (destruct v; apply B2SF_inj; vm_compute; reflexivity). destruct X; reflexivity || discriminate.
  - replace (py_sum v X X X) with (B754_infinity false : f64) by (destruct v; apply B2SF_inj; vm_compute; reflexivity). destruct X; reflexivity || discriminate.
Qed.
Print Assumptions C24_overflow_refuted.

(** The docstring's "Force fractions to sum to 1.0" fails: 1 : 15 : 6. *)
Theorem C24_sums_to_one_refuted : forall v, exists D T H D' T' H',
  fuel_composition64 v D T H = Ok ((D', T', H'), true) /\
  Beqb (py_sum v D' T' H') f1 = false /\
  exists D'' T'' H'', fuel_composition64 v D' T' H' = Ok ((D'', T'', H''), true) /\ Beqb T'' T' = false.
Proof.
  intro v. exists (f64_of_Z 1), (f64_of_Z 15), (f64_of_Z 6).
  do 3 eexists. split; [|split; [|do 3 eexists; split]].
  - unfold fuel_composition64.
    replace (Beqb (py_sum v (f64_of_Z 1) (f64_of_Z 15) (f64_of_Z 6)) f1) with false by (destruct v; vm_compute; reflexivity).
    replace (Beqb (py_sum v (f64_of_Z 1) (f64_of_Z 15) (f64_of_Z 6)) f0) with false by (destruct v; vm_compute; reflexivity).
    cbn [negb]. reflexivity.
  - destruct v; vm_compute; reflexivity.
  - unfold fuel_composition64 at 1.
    match goal with |- context [negb (Beqb ?s f1)] => replace (Beqb s f1) with false by (destruct v; vm_compute; reflexivity) end.
    match goal with |- context [Beqb ?s f0] => replace (Beqb s f0) with false by (destruct v; vm_compute; reflexivity) end.
    cbn [negb]. reflexivity.
  - destruct v; vm_compute; reflexivity.
Qed.
Print Assumptions C24_sums_to_one_refuted.

Example C24_example : exists r, fuel_composition64 false (f64_of_Z 1) (f64_of_Z 1) (f64_of_Z 0) = Ok (r, true) /\
  is_finite (f64_of_Z 1) = true /\ 0 <= B2R (f64_of_Z 1).
Proof.
  eexists; split; [|split; [reflexivity|]].
  - unfold fuel_composition64.
    match goal with |- context [negb (Beqb ?s f1)] => replace (Beqb s f1) with false by (vm_compute; reflexivity) end.
    match goal with |- context [Beqb ?s f0] => replace (Beqb s f0) with false by (vm_compute; reflexivity) end.
    cbn [negb]. reflexivity.
  - replace (f64_of_Z 1) with (Bone (prec := 53) (emax := 1024)).
    + rewrite Bone_correct. lra.
    + apply B2SF_inj. vm_compute; reflexivity.
Qed.

(** ... and those of C24_accuracy: 1 and 1 and 1 add up to 3. *)
Example C24_accuracy_example :
  is_finite (f64_of_Z 1) = true /\ 0 < B2R (f64_of_Z 1) + B2R (f64_of_Z 1) + B2R (f64_of_Z 1) <= 2 ^ 1022.
Proof.
  split; [reflexivity|]. replace (f64_of_Z 1) with (Bone (prec := 53) (emax := 1024)).
  - rewrite Bone_correct. pose proof (pow_R1_Rle 2 1020 ltac:(lra)). change (2 ^ 1022) with (2 * (2 * 2 ^ 1020)). lra.
  - apply B2SF_inj. vm_compute; reflexivity.
Qed.

(** C25 *)
Definition scaled (k : R) (x : res R) : res R := match x with Ok v => Ok (k * v) | Err e => Err e | NonFinite => NonFinite end.

Theorem C25_from_parameterisations : forall h ion_temperature fuel rho c,
  (fuel < length h)%nat ->
  exists h' ti, from_parameterisations h ion_temperature fuel rho c = Ok (h', ti) /\
    rho_prof ti = rho /\
    forall x, read h' (d_prof ti) x = scaled (fD c) (read h fuel x) /\
              read h' (t_prof ti) x = scaled (fT c) (read h fuel x) /\
              read h' (he3_prof ti) x = scaled (fHe3 c) (read h fuel x) /\
              ((ion_temperature < length h)%nat -> read h' (temp_prof ti) x = read h ion_temperature x).
Proof.
  intros h T n rho c Hn. destruct (nth_error h n) as [p|] eqn:E; [|apply nth_error_None in E; lia].
  eexists _, _; split; [apply from_param_eq; exact E|]. cbn [rho_prof d_prof t_prof he3_prof temp_prof].
  split; [reflexivity|]. intro x.
  assert (Rn : read h n x = value p x) by (unfold read; now rewrite E).
  rewrite read_new0, read_new1, read_new2, Rn.
  refine (conj _ (conj _ (conj _ _))); [exact (value_set_scale p (fD c) x)|exact (value_set_scale p (fT c) x)|exact (value_set_scale p (fHe3 c) x)|]. intro HT. now apply read_app.
Qed.
Print Assumptions C25_from_parameterisations.

(** from_profiles: compared with one data profile of the whole fuel density (temperature likewise). *)
Theorem C25_from_profiles : forall h Tv nv rho c,
  (length Tv = length rho /\ length nv = length rho /\ rho <> [] ->
   exists h' ti fuel temp, from_profiles h Tv nv rho c = Ok (h', ti) /\ rho_prof ti = rho /\
     data_profile nv rho 1 = Ok fuel /\ data_profile Tv rho 1 = Ok temp /\
     forall x, read h' (d_prof ti) x = scaled (fD c) (value fuel x) /\
               read h' (t_prof ti) x = scaled (fT c) (value fuel x) /\
               read h' (he3_prof ti) x = scaled (fHe3 c) (value fuel x) /\
               read h' (temp_prof ti) x = value temp x) /\
  (~ (length Tv = length rho /\ length nv = length rho /\ rho <> []) -> from_profiles h Tv nv rho c = Err EValue).
Proof.
  intros h Tv nv rho c; split.
  - intros (L1 & L2 & Hne).
    destruct (proj2 (data_profile_iff nv rho 1) (conj L2 Hne)) as [p Hp].
    destruct (proj2 (data_profile_iff Tv rho 1) (conj L1 Hne)) as [pT HT].
    destruct (data_profile_scale (fD c) _ _ _ _ Hp) as (p1 & H1 & V1).
    destruct (data_profile_scale (fT c) _ _ _ _ Hp) as (p2 & H2 & V2).
    destruct (data_profile_scale (fHe3 c) _ _ _ _ Hp) as (p3 & H3 & V3).
    eexists _, _, p, pT. split; [unfold from_profiles; apply from_arrays_eq; eassumption|].
    cbn [rho_prof d_prof t_prof he3_prof temp_prof].
    split; [reflexivity|]. split; [exact Hp|]. split; [exact HT|]. intro x.
    rewrite read_new0, read_new1, read_new2, read_new3.
    exact (conj (V1 x) (conj (V2 x) (conj (V3 x) eq_refl))).
  - intro N. unfold from_profiles, from_arrays.
    destruct (Nat.eq_dec (length nv) (length rho)) as [L2|L2].
    2:{ rewrite data_profile_fail; [reflexivity|]. rewrite map_length; tauto. }
    destruct rho as [|r rho].
    { rewrite data_profile_fail; [reflexivity|]. intros [_ H]; congruence. }
    assert (Hne : r :: rho <> []) by discriminate.
    assert (K : forall k, exists p, data_profile (map (fun n => k * n) nv) (r :: rho) 1 = Ok p).
    { intro k. apply data_profile_iff. rewrite map_length; auto. }
    destruct (K (fD c)) as [q1 ->], (K (fT c)) as [q2 ->], (K (fHe3 c)) as [q3 ->]. cbn [bind].
    rewrite data_profile_fail; [reflexivity|]. tauto.
Qed.
Print Assumptions C25_from_profiles.

(** The species densities add up to the fuel density. *)
Theorem C25_densities_add_up : forall h ion_temperature fuel rho c h' ti x n,
  from_parameterisations h ion_temperature fuel rho c = Ok (h', ti) ->
  fD c + fT c + fHe3 c = 1 -> read h fuel x = Ok n ->
  exists nd nt nh, read h' (d_prof ti) x = Ok nd /\ read h' (t_prof ti) x = Ok nt /\
    read h' (he3_prof ti) x = Ok nh /\ nd + nt + nh = n.
Proof.
  intros h T f rho c h' ti x n E S Hn.
  assert (Hf : (f < length h)%nat).
  { apply nth_error_Some. unfold read in Hn. destruct (nth_error h f); congruence. }
  destruct (C25_from_parameterisations h T f rho c Hf) as (h2 & ti2 & E2 & _ & V).
  rewrite E in E2. injection E2 as <- <-. destruct (V x) as (V1 & V2 & V3 & _).
  rewrite Hn in *. cbn in *. do 3 eexists. repeat split; eauto.
  replace (fD c * n + fT c * n + fHe3 c * n) with ((fD c + fT c + fHe3 c) * n) by ring. rewrite S; ring.
Qed.
Print Assumptions C25_densities_add_up.

Example C25_example : let h := [parabolic_profile 20 1 2; parabolic_profile 8 1 2] in
  (1 < length h)%nat /\ (fD dt_5050 + fT dt_5050 + fHe3 dt_5050 = 1) /\ read h 1%nat 0 = Ok 8.
Proof.
  cbn [length read nth_error dt_5050 fD fT fHe3]. split; [lia|]. split; [lra|].
  rewrite parab_value by lra. rewrite clamp01_id by lra. now rewrite parabola_0.
Qed.

(** C26: objects existing before the call are untouched, and whatever calls follow, the stored
    densities only see rescalings applied to themselves. *)
Theorem C26_caller_objects_unchanged : forall h T n rho c h' ti,
  from_parameterisations h T n rho c = Ok (h', ti) ->
  (forall r, (r < length h)%nat -> nth_error h' r = nth_error h r) /\
  (length h <= d_prof ti /\ length h <= t_prof ti /\ length h <= he3_prof ti)%nat /\
  d_prof ti <> t_prof ti /\ d_prof ti <> he3_prof ti /\ t_prof ti <> he3_prof ti /\
  temp_prof ti = T.
Proof.
  intros h T n rho c h' ti E. destruct (nth_error h n) as [p|] eqn:N.
  - rewrite (from_param_eq h T n rho c p N) in E. injection E as <- <-. cbn.
    repeat split; try lia. intros r Hr. now apply nth_error_app1.
  - rewrite from_param_none in E by exact N. discriminate.
Qed.
Print Assumptions C26_caller_objects_unchanged.

(** After any sequence [calls] of rescalings and further constructions, each stored profile is its
    value at construction times the scales applied to that very object. *)
Theorem C26_later_calls : forall h T n rho c h' ti calls x,
  from_parameterisations h T n rho c = Ok (h', ti) -> (T < length h)%nat ->
  read (run h' calls) (d_prof ti) x = scaled (factor (d_prof ti) calls) (read h' (d_prof ti) x) /\
  read (run h' calls) (t_prof ti) x = scaled (factor (t_prof ti) calls) (read h' (t_prof ti) x) /\
  read (run h' calls) (he3_prof ti) x = scaled (factor (he3_prof ti) calls) (read h' (he3_prof ti) x) /\
  read (run h' calls) (temp_prof ti) x = scaled (factor T calls) (read h T x).
Proof.
  intros h T n rho c h' ti calls x E HT. destruct (nth_error h n) as [p|] eqn:N.
  - rewrite (from_param_eq h T n rho c p N) in E. injection E as <- <-.
    cbn [d_prof t_prof he3_prof temp_prof].
    rewrite !read_run by (rewrite app_length; cbn; lia).
    rewrite (read_app _ _ T) by exact HT. repeat split.
  - rewrite from_param_none in E by exact N. discriminate.
Qed.
Print Assumptions C26_later_calls.

(** In particular nothing done to the caller's own objects changes the densities. *)
Theorem C26_density_independent_of_caller : forall h T n rho c h' ti calls x,
  from_parameterisations h T n rho c = Ok (h', ti) ->
  (forall r s, In (CScale r s) calls -> (r < length h)%nat) ->
  read (run h' calls) (d_prof ti) x = read h' (d_prof ti) x /\
  read (run h' calls) (t_prof ti) x = read h' (t_prof ti) x /\
  read (run h' calls) (he3_prof ti) x = read h' (he3_prof ti) x.
Proof.
  intros h T n rho c h' ti calls x E Hc.
  destruct (C26_caller_objects_unchanged h T n rho c h' ti E) as (_ & (L1 & L2 & L3) & _).
  assert (F : forall r, (length h <= r)%nat -> factor r calls = 1).
  { intros r Hr. clear - Hc Hr. induction calls as [|cl cs IH]; [reflexivity|].
    assert (IH' : factor r cs = 1) by (apply IH; intros; apply (Hc r0 s); now right).
    destruct cl as [r' s|a b d k]; cbn; [|exact IH'].
    destruct (Nat.eqb_spec r r') as [<-|]; [|exact IH']. specialize (Hc r s (or_introl eq_refl)). lia. }
  assert (Id : forall y : res R, res_map (Rmult 1) y = y)
    by (intros []; unfold res_map; cbn; [f_equal; ring|reflexivity|reflexivity]).
  destruct (nth_error h n) as [p|] eqn:N; [|rewrite from_param_none in E by exact N; discriminate].
  rewrite (from_param_eq h T n rho c p N) in E. injection E as <- <-.
  cbn [d_prof t_prof he3_prof] in *.
  rewrite !read_run by (rewrite app_length; cbn; lia). rewrite !F, !Id by assumption. auto.
Qed.
Print Assumptions C26_density_independent_of_caller.

(** ... but the temperature profile is the caller's object. *)
Theorem C26_temperature_is_shared : forall h T n rho c h' ti s x,
  from_parameterisations h T n rho c = Ok (h', ti) -> (T < length h)%nat ->
  read (heap_set_scale h' T s) (temp_prof ti) x = scaled s (read h T x).
Proof.
  intros h T n rho c h' ti s x E HT.
  pose proof (C26_later_calls h T n rho c h' ti [CScale T s] x E HT) as (_ & _ & _ & V).
  cbn in V. rewrite Nat.eqb_refl, Rmult_1_r in V. exact V.
Qed.
Print Assumptions C26_temperature_is_shared.

Example C26_example : exists h' ti,
  from_parameterisations [parabolic_profile 20 1 2; parabolic_profile 8 1 2] 0%nat 1%nat [0; 1] dt_5050 = Ok (h', ti) /\
  read h' (d_prof ti) 0 = Ok 4 /\
  read (run h' [CScale 1%nat 7; CScale 0%nat 2; CScale (t_prof ti) 5]) (d_prof ti) 0 = Ok 4 /\
  read (run h' [CScale 1%nat 7; CScale 0%nat 2; CScale (t_prof ti) 5]) (temp_prof ti) 0 = Ok 40.
Proof.
  set (h := [parabolic_profile 20 1 2; parabolic_profile 8 1 2]).
  assert (HT : (0 < length h)%nat) by (cbn; lia). assert (Hn : (1 < length h)%nat) by (cbn; lia).
  destruct (C25_from_parameterisations h 0%nat 1%nat [0; 1] dt_5050 Hn) as (h' & ti & E & _ & V).
  exists h', ti. split; [exact E|].
  destruct (C26_caller_objects_unchanged _ _ _ _ _ _ _ E) as (_ & (L1 & L2 & _) & N1 & _ & _ & _).
  assert (R1 : read h 1%nat 0 = Ok 8).
  { unfold h, read; cbn [nth_error]. rewrite parab_value by lra. rewrite clamp01_id by lra. now rewrite parabola_0. }
  assert (R0 : read h 0%nat 0 = Ok 20).
  { unfold h, read; cbn [nth_error]. rewrite parab_value by lra. rewrite clamp01_id by lra. now rewrite parabola_0. }
  assert (D : read h' (d_prof ti) 0 = Ok 4).
  { destruct (V 0) as (V1 & _). rewrite R1 in V1. rewrite V1. cbn. f_equal; lra. }
  split; [exact D|].
  pose proof (C26_later_calls h 0%nat 1%nat [0; 1] dt_5050 h' ti [CScale 1%nat 7; CScale 0%nat 2; CScale (t_prof ti) 5] 0 E HT) as (W1 & _ & _ & W4).
  rewrite D in W1. rewrite R0 in W4. cbn [length h] in *.
  split; [rewrite W1|rewrite W4]; cbn [factor scaled].
  - destruct (Nat.eqb_spec (d_prof ti) 1); [cbn in L1; lia|]. destruct (Nat.eqb_spec (d_prof ti) 0); [cbn in L1; lia|].
    destruct (Nat.eqb_spec (d_prof ti) (t_prof ti)); [congruence|]. f_equal; lra.
  - destruct (Nat.eqb_spec 0 1); [lia|]. destruct (Nat.eqb_spec 0 0); [|lia].
    destruct (Nat.eqb_spec 0 (t_prof ti)); [cbn in L2; lia|]. f_equal; lra.
Qed.

(** C27 *)
Theorem C27_frame_data : forall f k i rho ti nd nt r00, well_formed f ->
  frame_of (length (jTIME f)) k = Some i ->
  nth_error (jXPSQ f) i = Some rho -> nth_error (jTI f) i = Some ti ->
  nth_error (jNID f) i = Some nd -> nth_error (jNIT f) i = Some nt -> nth_error (jR00 f) i = Some r00 ->
  exists o ti0 nd0 nt0, load_jsp f k = Ok o /\
    nth_error ti 0 = Some ti0 /\ nth_error nd 0 = Some nd0 /\ nth_error nt 0 = Some nt0 /\
    o_rho o = 0 :: rho /\
    o_ti o = ti0 / 1000 :: map (fun x => x / 1000) ti /\
    o_d o = nd0 :: nd /\ o_t o = nt0 :: nt /\
    Forall (fun x => x = 0) (o_he3 o) /\
    nth_error r00 (length r00 - 1) = Some (o_rate o) /\
    length (o_ti o) = length (o_rho o) /\ length (o_d o) = length (o_rho o) /\
    length (o_t o) = length (o_rho o) /\ length (o_he3 o) = length (o_rho o).
Proof.
  intros f k i rho ti nd nt r00 W Hk N1 N2 N3 N4 N5.
  destruct (load_jsp_ok f k i rho ti nd nt r00 W Hk N1 N2 N3 N4 N5) as (ti0 & nd0 & nt0 & rate & A & B & C & D & E).
  eexists _, ti0, nd0, nt0. split; [exact E|]. cbn [o_rho o_ti o_d o_t o_he3 o_rate].
  repeat split; auto.
  - constructor; [reflexivity|]. apply Forall_forall. intros x Hx. apply in_map_iff in Hx. destruct Hx as (? & <- & _). reflexivity.
  - destruct W as (_ & _ & _ & _ & _ & m & _ & F1 & F2 & F3 & F4 & _). rewrite Forall_forall in *.
    cbn; rewrite map_length. rewrite (F1 rho), (F2 ti) by (eapply nth_error_In; eassumption). reflexivity.
  - destruct W as (_ & _ & _ & _ & _ & m & _ & F1 & F2 & F3 & F4 & _). rewrite Forall_forall in *.
    cbn. rewrite (F1 rho), (F3 nd) by (eapply nth_error_In; eassumption). reflexivity.
  - destruct W as (_ & _ & _ & _ & _ & m & _ & F1 & F2 & F3 & F4 & _). rewrite Forall_forall in *.
    cbn. rewrite (F1 rho), (F4 nt) by (eapply nth_error_In; eassumption). reflexivity.
  - cbn. now rewrite map_length.
Qed.
Print Assumptions C27_frame_data.

(** Bad frame numbers; an empty file has no last frame either (IndexError). *)
Theorem C27_bad_frames : forall f k, well_formed f ->
  (load_jsp f k = Err EValue <-> (k < -1 \/ Z.of_nat (length (jTIME f)) <= k)%Z) /\
  (k = (-1)%Z -> jTIME f = [] -> load_jsp f k = Err EIndex).
Proof.
  intros f k W. split.
  - split.
    + intro E. destruct (frame_of (length (jTIME f)) k) as [i|] eqn:Hk.
      * exfalso. pose proof W as (L1 & L2 & L3 & L4 & L5 & _).
        assert (Hi : (i < length (jTIME f))%nat).
        { unfold frame_of in Hk. destruct (k =? -1)%Z.
          - destruct (Nat.eqb_spec (length (jTIME f)) 0); [discriminate|]. injection Hk as <-. lia.
          - destruct (Z.leb_spec 0 k), (Z.ltb_spec k (Z.of_nat (length (jTIME f)))); try discriminate.
            injection Hk as <-. lia. }
        assert (G : forall M : list (list R), length M = length (jTIME f) -> exists r, nth_error M i = Some r).
        { intros M HM. destruct (nth_error M i) eqn:Q; [eauto|]. apply nth_error_None in Q. lia. }
        destruct (G _ L1) as [a A], (G _ L2) as [b B], (G _ L3) as [c C], (G _ L4) as [d D], (G _ L5) as [e E5].
        destruct (load_jsp_ok f k i a b c d e W Hk A B C D E5) as (? & ? & ? & ? & _ & _ & _ & _ & F). congruence.
      * unfold frame_of in Hk. destruct (Z.eqb_spec k (-1)) as [->|Hne].
        -- destruct (Nat.eqb_spec (length (jTIME f)) 0) as [Z0|]; [|discriminate].
           unfold load_jsp in E. rewrite Z0 in E. cbn in E. destruct W as (L1 & _). rewrite Z0 in L1.
           destruct (jXPSQ f); [cbn in E; discriminate|discriminate].
        -- destruct (Z.leb_spec 0 k), (Z.ltb_spec k (Z.of_nat (length (jTIME f)))); cbn in Hk; try discriminate; lia.
    + intro H. apply load_jsp_bad; [|lia]. unfold frame_of. destruct (Z.eqb_spec k (-1)); [lia|].
      destruct (Z.leb_spec 0 k), (Z.ltb_spec k (Z.of_nat (length (jTIME f)))); cbn; try reflexivity; lia.
  - intros -> H0. unfold load_jsp. rewrite H0. cbn. destruct W as (L1 & _). rewrite H0 in L1.
    destruct (jXPSQ f); [reflexivity|discriminate].
Qed.
Print Assumptions C27_bad_frames.

(** from_jetto: at every radius of the selected frame the transport information returns JETTO's value. *)
Theorem C27_from_jetto_nodes : forall h f k i rho ti nd nt r00 j x n m t, well_formed f ->
  frame_of (length (jTIME f)) k = Some i ->
  nth_error (jXPSQ f) i = Some rho -> nth_error (jTI f) i = Some ti ->
  nth_error (jNID f) i = Some nd -> nth_error (jNIT f) i = Some nt -> nth_error (jR00 f) i = Some r00 ->
  NoDup (0 :: rho) -> Forall (fun x => 0 <= x <= 1) rho ->
  nth_error rho j = Some x -> nth_error nd j = Some n -> nth_error nt j = Some m -> nth_error ti j = Some t ->
  exists h' tr, from_jetto h f k = Ok (h', tr) /\
    read h' (d_prof tr) x = Ok n /\ read h' (t_prof tr) x = Ok m /\ read h' (he3_prof tr) x = Ok 0 /\
    read h' (temp_prof tr) x = Ok (t / 1000).
Proof.
  intros h f k i rho ti nd nt r00 j x n m t W Hk N1 N2 N3 N4 N5 ND R01 X1 X2 X3 X4.
  destruct (C27_frame_data f k i rho ti nd nt r00 W Hk N1 N2 N3 N4 N5)
    as (o & ti0 & nd0 & nt0 & E & A & B & C & O1 & O2 & O3 & O4 & O5 & _ & L1 & L2 & L3 & L4).
  assert (Hx : 0 <= x <= 1) by (rewrite Forall_forall in R01; apply R01; eapply nth_error_In; eassumption).
  assert (K : forall vals v, length vals = length (o_rho o) -> nth_error vals (S j) = Some v ->
     exists p, data_profile vals (o_rho o) 1 = Ok p /\ value p x = Ok v).
  { intros vals v L Hv. 
    assert (Q : vals = map snd (combine (o_rho o) vals) /\ o_rho o = map fst (combine (o_rho o) vals)).
    { clear -L. revert vals L. generalize (o_rho o). induction l as [|a l IH]; intros [|b v] L; try discriminate; cbn; auto.
      injection L as L. destruct (IH v L) as [I1 I2]. split; f_equal; assumption. }
    set (tab := combine (o_rho o) vals) in *. destruct Q as [Q1 Q2].
    assert (Hne : tab <> []) by (intro Z0; rewrite Z0 in Q2; rewrite O1 in Q2; discriminate).
    exists (PData (sort_pairs tab) 1). split.
    - rewrite Q1, Q2. apply rows_profile_ok, Hne.
    - assert (Hd : distinct_radii tab) by (unfold distinct_radii; rewrite <- Q2, O1; exact ND).
      assert (Hi : In (x, v) tab).
      { apply (nth_error_In tab (S j)). unfold tab. rewrite O1. destruct vals as [|v0 vals]; [discriminate|].
        cbn in Hv |- *. clear -X1 Hv. revert vals rho X1 Hv. induction j as [|j IH]; intros [|b vals] [|a rho]; cbn; try congruence.
        apply IH. }
      eapply ir_at_node; [exact Hd|exact Hi|]. rewrite <- (clamp01_id x Hx) at 1. now apply data_value_char. }
  destruct (K (o_d o) n L2) as (p1 & P1 & V1); [rewrite O3; exact X2|].
  destruct (K (o_t o) m L3) as (p2 & P2 & V2); [rewrite O4; exact X3|].
  destruct (K (o_he3 o) 0 L4) as (p3 & P3 & V3).
  { destruct (nth_error (o_he3 o) (S j)) as [z|] eqn:Z0.
    - rewrite Forall_forall in O5. f_equal. apply O5. eapply nth_error_In; eassumption.
    - apply nth_error_None in Z0. rewrite L4, O1 in Z0. cbn in Z0.
      assert (j < length rho)%nat by (apply nth_error_Some; congruence). lia. }
  destruct (K (o_ti o) (t / 1000) L1) as (p4 & P4 & V4).
  { rewrite O2. cbn. rewrite nth_error_map, X4. reflexivity. }
  unfold from_jetto. rewrite E. cbn [bind].
  eexists _, _. split; [apply from_arrays_eq; eassumption|]. cbn [d_prof t_prof he3_prof temp_prof].
  rewrite read_new0, read_new1, read_new2, read_new3. auto.
Qed.
Print Assumptions C27_from_jetto_nodes.

Example C27_example :
  let f := {| jTIME := [1; 2]; jXPSQ := [[0.1; 0.9]; [0.2; 1]]; jTI := [[1; 2]; [3000; 4000]];
              jNID := [[5; 6]; [7; 8]]; jNIT := [[9; 10]; [11; 12]]; jR00 := [[1; 2]; [3; 4]] |} in
  well_formed f /\ frame_of (length (jTIME f)) (-1) = Some 1%nat /\
  exists o, load_jsp f (-1) = Ok o /\ o_rho o = [0; 0.2; 1] /\ o_ti o = [3000 / 1000; 3000 / 1000; 4000 / 1000] /\ o_rate o = 4.
Proof.
  cbn [jTIME jXPSQ jTI jNID jNIT jR00]. split.
  - unfold well_formed; cbn. repeat split. exists 2%nat. repeat split; try lia; repeat constructor.
  - split; [reflexivity|]. eexists. split; [reflexivity|]. cbn. auto.
Qed.
