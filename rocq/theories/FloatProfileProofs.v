(** Lemmas for C101. *)
From Coq Require Import ZArith Bool Reals Lra Lia List Permutation Sorted.
From Flocq Require Import Core.Core Plus_error Mult_error Relative IEEE754.BinarySingleNaN.
From Verif Require Import Base FloatComp FloatCompProofs FloatCompAcc FloatSource SpecFloatSource FloatSourceProofs FloatSpace SpecFloatSpace FloatSpaceProofs.
From Verif Require Import Profile SpecProfile ProfileProofs FloatProfile SpecFloatProfile.
Open Scope R_scope.
Local Instance p53pr : Prec_gt_0 53 := eq_refl.
Local Notation bp := (bpow radix2).

Lemma roundoff_uu : unit_roundoff = uu. Proof. reflexivity. Qed.

(** ** Powers of numbers in [0, 1] *)
Lemma Rpower_frac_ge x a : 0 < x <= 1 -> 0 < a <= 1 -> x <= Rpower x a.
Proof.
  intros [Px Lx] [Pa La]. rewrite <- (exp_ln x) at 1 by exact Px. unfold Rpower.
  assert (ln x <= 0). { rewrite <- ln_1. destruct Lx as [L| -> ]; [left; apply ln_increasing; lra|lra]. }
  destruct (Rle_lt_or_eq_dec (ln x) (a * ln x)) as [L|E]; [nra|left; now apply exp_increasing|rewrite <- E; lra].
Qed.
Lemma pw_sub a x y : 0 < a <= 1 -> 0 <= x -> 0 <= y -> pw (x + y) a <= pw x a + pw y a.
Proof.
  intros Ha [Px| <- ]; [|rewrite pw_0; intros; rewrite !Rplus_0_l; lra]. intros [Py| <- ]; [|rewrite pw_0, !Rplus_0_r; lra].
  rewrite !pw_pos by lra. set (s := x + y). assert (Ps : 0 < s) by (unfold s; lra).
  assert (A : forall t, 0 < t <= s -> Rpower s a * (t / s) <= Rpower t a).
  { intros t Ht. replace (Rpower t a) with (Rpower s a * Rpower (t / s) a).
    - apply Rmult_le_compat_l; [left; apply exp_pos|]. apply Rpower_frac_ge; [|lra]. split; [apply Rdiv_lt_0_compat; lra|]. apply (Rmult_le_reg_r s); [lra|]. unfold Rdiv. rewrite Rmult_assoc, Rinv_l; lra.
    - rewrite Rpower_mult_distr; [f_equal; field; lra|lra|apply Rdiv_lt_0_compat; lra]. }
  pose proof (A x ltac:(unfold s; lra)). pose proof (A y ltac:(unfold s; lra)).
  replace (Rpower s a) with (Rpower s a * (x / s) + Rpower s a * (y / s)); [lra|]. unfold s. field. lra.
Qed.
Lemma pw_lip a x y : 1 <= a -> 0 <= x <= y -> y <= 1 -> pw y a - pw x a <= a * (y - x).
Proof.
  intros Ha [Hx Hxy] Hy. destruct Hxy as [L|E]; [|subst; lra]. destruct Hx as [Px| <- ].
  - rewrite !pw_pos by lra. destruct (MVT_cor2 (fun z => Rpower z a) (fun z => a * Rpower z (a - 1)) x y L) as (c & E & Hc).
    { intros c Hc. apply derivable_pt_lim_power. lra. }
    rewrite E. apply Rmult_le_compat_r; [lra|]. apply Rle_trans with (a * 1); [|lra]. apply Rmult_le_compat_l; [lra|].
    destruct (Rle_lt_or_eq_dec c 1) as [Lc| -> ]; [lra| |].
    + unfold Rpower. apply Rle_trans with (exp 0); [|rewrite exp_0; lra]. assert (ln c < 0) by (rewrite <- ln_1; apply ln_increasing; lra).
      destruct (Rle_lt_or_eq_dec ((a - 1) * ln c) 0) as [H0| -> ]; [nra|left; now apply exp_increasing|lra].
    + unfold Rpower. rewrite ln_1, Rmult_0_r, exp_0. lra.
  - rewrite pw_0, pw_pos by lra. replace (pw y a) with (pw y a) by reflexivity.
    assert (Rpower y a <= y). { rewrite <- (exp_ln y) at 2 by lra. unfold Rpower. assert (ln y <= 0). { rewrite <- ln_1. destruct (Rle_lt_or_eq_dec y 1 Hy) as [L'| -> ]; [left; apply ln_increasing; lra|lra]. }
      destruct (Rle_lt_or_eq_dec (a * ln y) (ln y)) as [H0| -> ]; [nra|left; now apply exp_increasing|lra]. }
    nra.
Qed.
Lemma gap_mono a d d' : 0 < a -> 0 <= d <= d' -> power_gap a d <= power_gap a d'.
Proof. intros Ha Hd. unfold power_gap. apply Rmult_le_compat_l; [pose proof (Rmax_l 1 a); lra|]. apply pw_mono; [|lra]. unfold Rmin. destruct (Rle_dec 1 a); lra. Qed.
Lemma gap_nonneg a d : 0 <= power_gap a d.
Proof. unfold power_gap. apply Rmult_le_pos; [pose proof (Rmax_l 1 a); lra|apply pw_nonneg]. Qed.
Lemma pw_a1 x : 0 <= x -> pw x 1 = x.
Proof. intros [P| <- ]; [rewrite pw_pos by exact P; now apply Rpower_1|apply pw_0]. Qed.
Lemma gap_le a x y : 0 < a -> 0 <= x <= y -> y <= 1 -> Rabs (pw y a - pw x a) <= power_gap a (y - x).
Proof.
  intros Ha Hx Hy. rewrite Rabs_pos_eq by (pose proof (pw_mono x y a Ha ltac:(lra)); lra). unfold power_gap. destruct (Rle_or_lt 1 a) as [L|L].
  - rewrite Rmax_right, Rmin_left, pw_a1 by lra. apply pw_lip; lra.
  - rewrite Rmax_left, Rmin_right, Rmult_1_l by lra. pose proof (pw_sub a x (y - x) ltac:(lra) ltac:(lra) ltac:(lra)) as H. replace (x + (y - x)) with y in H by ring. lra.
Qed.
Lemma gap_ok a d x y : 0 < a -> 0 <= x <= 1 -> 0 <= y <= 1 -> Rabs (x - y) <= d -> Rabs (pw x a - pw y a) <= power_gap a d.
Proof.
  intros Ha Hx Hy Hd. destruct (Rle_or_lt x y) as [L|L].
  - rewrite Rabs_minus_sym. apply Rle_trans with (power_gap a (y - x)); [apply gap_le; lra|]. apply gap_mono; [exact Ha|]. rewrite Rabs_minus_sym, Rabs_pos_eq in Hd; lra.
  - apply Rle_trans with (power_gap a (x - y)); [apply gap_le; lra|]. apply gap_mono; [exact Ha|]. rewrite Rabs_pos_eq in Hd; lra.
Qed.

(** ** Comparisons, clipping, signs *)
Lemma f0_val : is_finite f0 = true /\ B2R f0 = 0. Proof. split; reflexivity. Qed.
Lemma f1_val : is_finite f1 = true /\ B2R f1 = 1.
Proof. split; [reflexivity|apply Bone_correct]. Qed.
Lemma ltb_val (x y : f64) : is_finite x = true -> is_finite y = true -> (Bltb x y = true <-> B2R x < B2R y).
Proof.
  intros Fx Fy. rewrite Bltb_correct by assumption. destruct (Rlt_bool_spec (B2R x) (B2R y)); split; intro; try easy; lra.
Qed.
Lemma ltb_val_f (x y : f64) : is_finite x = true -> is_finite y = true -> (Bltb x y = false <-> B2R y <= B2R x).
Proof. intros Fx Fy. rewrite Bltb_correct by assumption. destruct (Rlt_bool_spec (B2R x) (B2R y)); split; intro; try easy; lra. Qed.
Lemma leb_val (x y : f64) : is_finite x = true -> is_finite y = true -> (Bleb x y = true <-> B2R x <= B2R y).
Proof. intros Fx Fy. rewrite Bleb_correct by assumption. destruct (Rle_bool_spec (B2R x) (B2R y)); split; intro; try easy; lra. Qed.
Lemma leb_val_f (x y : f64) : is_finite x = true -> is_finite y = true -> (Bleb x y = false <-> B2R y < B2R x).
Proof. intros Fx Fy. rewrite Bleb_correct by assumption. destruct (Rle_bool_spec (B2R x) (B2R y)); split; intro; try easy; lra. Qed.
Lemma eqb_val (x y : f64) : is_finite x = true -> is_finite y = true -> (Beqb x y = true <-> B2R x = B2R y).
Proof. intros Fx Fy. rewrite Beqb_correct by assumption. destruct (Req_bool_spec (B2R x) (B2R y)); split; intro; try easy; lra. Qed.
Lemma eqb_val_f (x y : f64) : is_finite x = true -> is_finite y = true -> (Beqb x y = false <-> B2R x <> B2R y).
Proof. intros Fx Fy. rewrite Beqb_correct by assumption. destruct (Req_bool_spec (B2R x) (B2R y)); split; intro; easy. Qed.

Lemma clip_val (x : f64) : is_finite x = true -> is_finite (clip64 f0 f1 x) = true /\ B2R (clip64 f0 f1 x) = clamp01 (B2R x).
Proof.
  intro F. destruct f0_val as [F0 V0]. destruct f1_val as [F1 V1]. unfold clip64, clamp01.
  destruct (Bltb x f0) eqn:E.
  - apply ltb_val in E; [|assumption..]. rewrite V0 in E. assert (Bltb f1 f0 = false) as -> by (apply ltb_val_f; [assumption..|lra]).
    split; [exact F0|]. rewrite V0, Rmax_right, Rmin_left; lra.
  - apply ltb_val_f in E; [|assumption..]. rewrite V0 in E. destruct (Bltb f1 x) eqn:E1.
    + apply ltb_val in E1; [|assumption..]. rewrite V1 in E1. split; [exact F1|]. rewrite V1, Rmax_left, Rmin_right; lra.
    + apply ltb_val_f in E1; [|assumption..]. rewrite V1 in E1. split; [exact F|]. rewrite Rmax_left, Rmin_left; lra.
Qed.
Lemma sign_pos (x : f64) : is_finite x = true -> 0 < B2R x -> sign64 x = f1.
Proof. intros F P. unfold sign64. assert (Bltb f0 x = true) as -> by (apply ltb_val; [reflexivity|exact F|exact P]). reflexivity. Qed.
Lemma sign_0 (x : f64) : is_finite x = true -> B2R x = 0 -> sign64 x = f0.
Proof.
  intros F P. unfold sign64. assert (Bltb f0 x = false) as -> by (apply ltb_val_f; [reflexivity|exact F|cbn; lra]). assert (Bltb x f0 = false) as -> by (apply ltb_val_f; [exact F|reflexivity|cbn; lra]).
  assert (Beqb x f0 = true) as -> by (apply eqb_val; [exact F|reflexivity|exact P]). reflexivity.
Qed.
Lemma abs_val (x : f64) : is_finite x = true -> is_finite (Babs x) = true /\ B2R (Babs x) = Rabs (B2R x).
Proof. intro F. split; [now rewrite is_finite_Babs|apply B2R_Babs]. Qed.

(** ** Exact products *)
Lemma fmul_value x y : is_finite x = true -> is_finite y = true -> Rabs (rnd (B2R x * B2R y)) < bp 1024 ->
  is_finite (fmul x y) = true /\ B2R (fmul x y) = rnd (B2R x * B2R y).
Proof.
  intros Fx Fy L. pose proof (Bmult_correct 53 1024 Hprec64 Hmax64 mode_NE x y) as C. rewrite fexp64 in C. change (round_mode mode_NE) with ZnearestE in C.
  rewrite Rlt_bool_true in C by exact L. destruct C as (E' & F & _). rewrite Fx, Fy in F. split; [exact F|exact E'].
Qed.
Lemma fin_lt (x : f64) : Rabs (B2R x) < bp 1024. Proof. apply abs_B2R_lt_emax. Qed.
Lemma fmul_unit_l x : is_finite x = true -> is_finite (fmul f1 x) = true /\ B2R (fmul f1 x) = B2R x.
Proof.
  intro F. destruct f1_val as [F1 V1]. assert (E : B2R f1 * B2R x = B2R x) by (rewrite V1; ring).
  destruct (fmul_value f1 x F1 F) as [A B]; rewrite E, (rnd_id _ (B2R_fmt x)) in *; [apply fin_lt|auto].
Qed.
Lemma fmul_unit_r x : is_finite x = true -> is_finite (fmul x f1) = true /\ B2R (fmul x f1) = B2R x.
Proof.
  intro F. destruct f1_val as [F1 V1]. assert (E : B2R x * B2R f1 = B2R x) by (rewrite V1; ring).
  destruct (fmul_value x f1 F F1) as [A B]; rewrite E, (rnd_id _ (B2R_fmt x)) in *; [apply fin_lt|auto].
Qed.
Lemma fmul_zero x y : is_finite x = true -> is_finite y = true -> B2R x * B2R y = 0 -> is_finite (fmul x y) = true /\ B2R (fmul x y) = 0.
Proof.
  intros Fx Fy E. destruct (fmul_value x y Fx Fy) as [A B]; rewrite E, rnd_0 in *; [rewrite Rabs_R0; apply bpow_gt_0|auto].
Qed.

(** ** The parabola *)
Lemma moderate_bp x : moderate x -> bp (-90) <= Rabs x <= bp 90.
Proof. intros [A B]. split; [exact A|exact B]. Qed.
Lemma moderate_scale x : moderate x -> scale (Rabs x).
Proof. intro H. apply moderate_bp in H. pose proof (bpow_le radix2 (-200) (-90) ltac:(lia)). pose proof (bpow_le radix2 90 200 ltac:(lia)). unfold scale. lra. Qed.
Lemma moderate_scale2 x y : moderate x -> moderate y -> scale (Rabs x * Rabs y).
Proof.
  intros H H'. apply moderate_bp in H. apply moderate_bp in H'. pose proof (bpow_gt_0 radix2 (-90)).
  assert (bp (-90) * bp (-90) <= Rabs x * Rabs y <= bp 90 * bp 90) as B by (split; apply Rmult_le_compat; lra). rewrite <- !bpow_plus in B.
  pose proof (bpow_le radix2 (-200) (-90 + -90) ltac:(lia)). pose proof (bpow_le radix2 (90 + 90) 200 ltac:(lia)). unfold scale. lra.
Qed.
Lemma clamp_range x : 0 <= clamp01 x <= 1.
Proof. rewrite clamp_clip. apply clip_range. lra. Qed.
Lemma rnd_unit x : 0 <= x <= 1 -> 0 <= rnd x <= 1.
Proof. intros [A B]. apply rnd_mono in A. apply rnd_mono in B. rewrite rnd_0 in A. rewrite (rnd_id 1 fmt_1) in B. now split. Qed.
Lemma rnd_unit_err x : 0 <= x <= 1 -> Rabs (rnd x - x) <= uu.
Proof.
  intros H. assert (S : scale 1) by (split; [change 1 with (bp 0); apply bpow_le; lia|change 1 with (bp 0) at 1; apply bpow_le; lia]).
  destruct (rnd_err 1 1 x S) as [E _]; [|rewrite Rabs_pos_eq; lra|lra]. split; [lra|]. change 1 with (bp 0). apply bpow_le. lia.
Qed.
Lemma k30 K : 1 <= K <= 1000 -> 1 <= K <= bp 30.
Proof. intros [A B]. split; [exact A|]. apply Rle_trans with (1 := B). change (bp 30) with (IZR (2 ^ 30)). apply IZR_le. lia. Qed.
(** 1 - x for x in [0, 1]. *)
Lemma one_minus x : is_finite x = true -> 0 <= B2R x <= 1 ->
  is_finite (fsub f1 x) = true /\ B2R (fsub f1 x) = rnd (1 - B2R x) /\ 0 <= B2R (fsub f1 x) <= 1 /\ Rabs (B2R (fsub f1 x) - (1 - B2R x)) <= uu.
Proof.
  intros F H. destruct f1_val as [F1 V1]. destruct (fsub_cases f1 x F1 F) as [E Fi].
  - rewrite V1. pose proof (rnd_unit (1 - B2R x) ltac:(lra)). rewrite Rabs_pos_eq by lra. apply Rle_lt_trans with 1; [lra|]. change 1 with (bp 0). apply bpow_lt. lia.
  - rewrite V1 in E. rewrite E. repeat split; try apply rnd_unit; try lra; [exact Fi|]. apply rnd_unit_err; lra.
Qed.

Section Power.
  Variable pow : f64 -> f64 -> f64.
  Hypothesis Hpow : power_of_unit pow.

  (** 1 - sign(rho) |rho|^beta for a clipped radius. *)
  Lemma inner_ok rho beta : is_finite rho = true -> 0 <= B2R rho <= 1 -> is_finite beta = true -> 0 < B2R beta ->
    let f := fsub f1 (fmul (sign64 rho) (pow (Babs rho) beta)) in
    is_finite f = true /\ 0 <= B2R f <= 1 /\ Rabs (B2R f - (1 - pw (B2R rho) (B2R beta))) <= 5 * uu /\ B2R f = rnd (1 - B2R (pow (Babs rho) beta)) /\
    (B2R rho = 0 -> B2R f = 1) /\ (B2R rho = 1 -> B2R f = 0).
  Proof.
    intros F R Fb Pb f. destruct (abs_val rho F) as [Fa Va]. rewrite (Rabs_pos_eq (B2R rho)) in Va by lra.
    destruct (Hpow (Babs rho) beta Fa Fb) as (Fp & Rp & Ep & Z0 & Z1); [rewrite Va; lra|exact Pb|]. rewrite Va in *. rewrite roundoff_uu in Ep.
    assert (G : is_finite (fmul (sign64 rho) (pow (Babs rho) beta)) = true /\ B2R (fmul (sign64 rho) (pow (Babs rho) beta)) = B2R (pow (Babs rho) beta)).
    { destruct R as [[P|Z] R1].
      - rewrite (sign_pos _ F P). now apply fmul_unit_l.
      - symmetry in Z. rewrite (sign_0 _ F Z), (Z0 Z). apply fmul_zero; [reflexivity|exact Fp|cbn; ring]. }
    destruct G as [Fg Vg]. destruct (one_minus _ Fg) as (Ff & Ef & Rf & Df); [rewrite Vg; exact Rp|]. fold f in Ff, Ef, Rf, Df. rewrite Vg in *.
    split; [exact Ff|]. split; [exact Rf|]. split; [|split; [exact Ef|]].
    - replace (B2R f - (1 - pw (B2R rho) (B2R beta))) with ((B2R f - (1 - B2R (pow (Babs rho) beta))) - (B2R (pow (Babs rho) beta) - pw (B2R rho) (B2R beta))) by ring.
      unfold Rminus at 1. eapply Rle_trans; [apply Rabs_triang|]. rewrite Rabs_Ropp. lra.
    - split; intro Z; rewrite Ef.
      + rewrite (Z0 Z), Rminus_0_r. apply rnd_id, fmt_1.
      + rewrite (Z1 Z). replace (1 - 1) with 0 by ring. apply rnd_0.
  Qed.
  (** core sign(f) |f|^alpha for f in [0, 1]. *)
  Lemma outer_ok core f alpha : is_finite core = true -> moderate (B2R core) -> is_finite f = true -> 0 <= B2R f <= 1 -> is_finite alpha = true -> 0 < B2R alpha ->
    let v := fmul (fmul core (sign64 f)) (pow (Babs f) alpha) in
    is_finite v = true /\ B2R v = rnd (B2R core * B2R (pow (Babs f) alpha)) /\
    Rabs (B2R v - B2R core * pw (B2R f) (B2R alpha)) <= 5 * uu * Rabs (B2R core) /\ Rabs (B2R v) <= Rabs (B2R core) /\
    (B2R f = 1 -> B2R v = B2R core) /\ (B2R f = 0 -> B2R v = 0).
  Proof.
    intros Fc Mc F R Fb Pb v. destruct (abs_val f F) as [Fa Va]. rewrite (Rabs_pos_eq (B2R f)) in Va by lra.
    destruct (Hpow (Babs f) alpha Fa Fb) as (Fp & Rp & Ep & Z0 & Z1); [rewrite Va; lra|exact Pb|]. rewrite Va in *. rewrite roundoff_uu in Ep.
    set (p := pow (Babs f) alpha) in *. pose proof (Rabs_pos (B2R core)) as Pc. pose proof uu_small as U.
    assert (L : Rabs (B2R core * B2R p) <= 1 * Rabs (B2R core)). { rewrite Rabs_mult, (Rabs_pos_eq (B2R p)) by lra. nra. }
    destruct (rnd_err (Rabs (B2R core)) 1 (B2R core * B2R p) (moderate_scale _ Mc) (k30 1 ltac:(lra)) L) as [E Lt].
    assert (G : is_finite v = true /\ B2R v = rnd (B2R core * B2R p)).
    { destruct R as [[P|Z] R1].
      - unfold v. rewrite (sign_pos _ F P). destruct (fmul_unit_r core Fc) as [Fg Vg]. destruct (fmul_value (fmul core f1) p Fg Fp) as [A B]; rewrite Vg in *; [exact Lt|auto].
      - symmetry in Z. unfold v. rewrite (sign_0 _ F Z). destruct (fmul_zero core f0 Fc eq_refl) as [Fg Vg]; [cbn; ring|]. fold p. rewrite (Z0 Z), Rmult_0_r, rnd_0. apply fmul_zero; [exact Fg|exact Fp|]. rewrite Vg. ring. }
    destruct G as [Fv Ev]. split; [exact Fv|]. split; [exact Ev|]. split; [|split; [|split]].
    - rewrite Ev. replace (rnd (B2R core * B2R p) - B2R core * pw (B2R f) (B2R alpha)) with ((rnd (B2R core * B2R p) - B2R core * B2R p) + B2R core * (B2R p - pw (B2R f) (B2R alpha))) by ring.
      eapply Rle_trans; [apply Rabs_triang|]. rewrite (Rabs_mult (B2R core)). nra.
    - rewrite Ev. rewrite <- (rnd_id _ (B2R_fmt core)) at 2. rewrite <- (round_NE_abs radix2 fx (B2R core * B2R p)), <- (round_NE_abs radix2 fx (B2R core)). apply rnd_mono. lra.
    - intro Z. rewrite Ev, (Z1 Z), Rmult_1_r. apply rnd_id, B2R_fmt.
    - intro Z. rewrite Ev, (Z0 Z), Rmult_0_r. apply rnd_0.
  Qed.
  (** The last factor. *)
  Lemma scaled_ok k v x M D : is_finite k = true -> is_finite v = true -> scale (Rabs (B2R k) * M) -> 1 <= D <= 900 -> Rabs x <= 4 * M -> 0 <= M -> Rabs (B2R v) <= D * M ->
    is_finite (fmul k v) = true /\ B2R (fmul k v) = rnd (B2R k * B2R v) /\ Rabs (B2R (fmul k v) - B2R k * B2R v) <= D * uu * (Rabs (B2R k) * M).
  Proof.
    intros Fk Fv S HD Hx HM Hv. pose proof (Rabs_pos (B2R k)) as Pk. assert (L : Rabs (B2R k * B2R v) <= D * (Rabs (B2R k) * M)). { rewrite Rabs_mult. nra. }
    destruct (rnd_err _ D _ S (k30 D ltac:(lra)) L) as [E Lt]. destruct (fmul_value k v Fk Fv Lt) as [A B]. split; [exact A|]. split; [exact B|]. rewrite B. lra.
  Qed.

  Lemma parab_ok fused core alpha beta k rho : is_finite core = true -> is_finite alpha = true -> is_finite beta = true -> is_finite k = true -> is_finite rho = true ->
    moderate (B2R core) -> moderate (B2R k) -> 0 < B2R alpha -> 0 < B2R beta ->
    exists v, value64 fused pow (PParab64 core alpha beta k) rho = Ok v /\ is_finite v = true /\
      Rabs (B2R v - B2R k * parabola (B2R core) (B2R alpha) (B2R beta) (clamp01 (B2R rho))) <=
        Rabs (B2R k * B2R core) * (6 * uu + power_gap (B2R alpha) (5 * uu)) /\
      (0 <= B2R k -> 0 <= B2R core -> 0 <= B2R v <= B2R (fmul k core)) /\
      (B2R rho <= 0 -> B2R v = B2R (fmul k core)) /\ (1 <= B2R rho -> B2R v = 0).
  Proof.
    intros Fc Fa Fb Fk Fr Mc Mk Pa Pb. unfold value64. destruct (clip_val rho Fr) as [Fr' Vr]. set (r := clip64 f0 f1 rho) in *.
    pose proof (clamp_range (B2R rho)) as Rr. rewrite <- Vr in Rr.
    destruct (inner_ok r beta Fr' Rr Fb Pb) as (Ff & Rf & Ef & Vf & Z0 & Z1). cbv zeta. set (f := fsub f1 _) in *.
    destruct (outer_ok core f alpha Fc Mc Ff Rf Fa Pa) as (Fv & Vv & Ev & Bv & Y1 & Y0). set (w := fmul (fmul core (sign64 f)) (pow (Babs f) alpha)) in *.
    destruct (scaled_ok k w 0 (Rabs (B2R core)) 1 Fk Fv (moderate_scale2 _ _ Mk Mc)) as (Fs & Vs & Es); try (rewrite ?Rabs_R0; pose proof (Rabs_pos (B2R core)); lra).
    destruct (scaled_ok k core 0 (Rabs (B2R core)) 1 Fk Fc (moderate_scale2 _ _ Mk Mc)) as (Ft & Vt & Et); try (rewrite ?Rabs_R0; pose proof (Rabs_pos (B2R core)); lra).
    exists (fmul k w). split; [reflexivity|]. split; [exact Fs|]. split; [|split; [|split]].
    - rewrite <- Vr. unfold parabola. pose proof (gap_ok (B2R alpha) (5 * uu) (B2R f) (1 - pw (B2R r) (B2R beta)) Pa Rf) as G.
      assert (0 <= pw (B2R r) (B2R beta) <= 1) by (split; [apply pw_nonneg|apply pw_le1; lra]). specialize (G ltac:(lra) Ef).
      set (P := pw (1 - pw (B2R r) (B2R beta)) (B2R alpha)) in *. rewrite Rabs_mult.
      replace (B2R (fmul k w) - B2R k * (B2R core * P)) with ((B2R (fmul k w) - B2R k * B2R w) + B2R k * ((B2R w - B2R core * pw (B2R f) (B2R alpha)) + B2R core * (pw (B2R f) (B2R alpha) - P))) by ring.
      eapply Rle_trans; [apply Rabs_triang|]. rewrite (Rabs_mult (B2R k)). pose proof (Rabs_triang (B2R w - B2R core * pw (B2R f) (B2R alpha)) (B2R core * (pw (B2R f) (B2R alpha) - P))) as T. rewrite (Rabs_mult (B2R core)) in T.
      pose proof (Rabs_pos (B2R k)). pose proof (Rabs_pos (B2R core)). set (g := power_gap _ _) in *.
      assert (Rabs (B2R core) * Rabs (pw (B2R f) (B2R alpha) - P) <= Rabs (B2R core) * g) by (apply Rmult_le_compat_l; assumption).
      assert (Rabs (B2R k) * Rabs (B2R w - B2R core * pw (B2R f) (B2R alpha) + B2R core * (pw (B2R f) (B2R alpha) - P)) <= Rabs (B2R k) * (5 * uu * Rabs (B2R core) + Rabs (B2R core) * g)) by (apply Rmult_le_compat_l; lra).
      lra.
    - intros Pk Pc. assert (0 <= B2R w) as Pw. { rewrite Vv. rewrite <- rnd_0. apply rnd_mono. apply Rmult_le_pos; [exact Pc|].
        destruct (abs_val f Ff) as [Fab Vab]. rewrite (Rabs_pos_eq (B2R f)) in Vab by lra. apply Hpow; [exact Fab|exact Fa|rewrite Vab; lra|exact Pa]. }
      rewrite Vs, Vt. split; [rewrite <- rnd_0|]; apply rnd_mono; [now apply Rmult_le_pos|]. apply Rmult_le_compat_l; [exact Pk|]. rewrite !Rabs_pos_eq in Bv by lra. exact Bv.
    - intro Z. assert (E : B2R r = 0) by (rewrite Vr; unfold clamp01; rewrite Rmax_right, Rmin_left; lra). rewrite Vs, Vt, (Y1 (Z0 E)). reflexivity.
    - intro Z. assert (E : B2R r = 1) by (rewrite Vr; unfold clamp01; rewrite Rmax_left, Rmin_right; lra). rewrite Vs, (Y0 (Z1 E)), Rmult_0_r. apply rnd_0.
  Qed.

  Lemma parab_mono fused core alpha beta k rho rho' v v' : is_finite core = true -> is_finite alpha = true -> is_finite beta = true -> is_finite k = true -> is_finite rho = true -> is_finite rho' = true ->
    moderate (B2R core) -> moderate (B2R k) -> 0 < B2R alpha -> 0 < B2R beta -> 0 <= B2R k -> 0 <= B2R core -> power_monotone pow -> B2R rho <= B2R rho' ->
    value64 fused pow (PParab64 core alpha beta k) rho = Ok v -> value64 fused pow (PParab64 core alpha beta k) rho' = Ok v' -> B2R v' <= B2R v.
  Proof.
    intros Fc Fa Fb Fk Fr Fr' Mc Mk Pa Pb Pk Pc Hm Hle. unfold value64. destruct (clip_val rho Fr) as [Gr Vr]. destruct (clip_val rho' Fr') as [Gr' Vr'].
    set (r := clip64 f0 f1 rho) in *. set (r' := clip64 f0 f1 rho') in *.
    pose proof (clamp_range (B2R rho)) as Rr. rewrite <- Vr in Rr. pose proof (clamp_range (B2R rho')) as Rr'. rewrite <- Vr' in Rr'.
    assert (L : B2R r <= B2R r'). { rewrite Vr, Vr'. now apply (clip_mono 0 1). }
    destruct (inner_ok r beta Gr Rr Fb Pb) as (Ff & Rf & _ & Vf & _). destruct (inner_ok r' beta Gr' Rr' Fb Pb) as (Ff' & Rf' & _ & Vf' & _). cbv zeta. set (f := fsub f1 (fmul (sign64 r) _)) in *. set (f' := fsub f1 (fmul (sign64 r') _)) in *.
    destruct (outer_ok core f alpha Fc Mc Ff Rf Fa Pa) as (Fv & Vv & _ & Bv & _). destruct (outer_ok core f' alpha Fc Mc Ff' Rf' Fa Pa) as (Fv' & Vv' & _ & Bv' & _).
    set (w := fmul (fmul core (sign64 f)) (pow (Babs f) alpha)) in *. set (w' := fmul (fmul core (sign64 f')) (pow (Babs f') alpha)) in *.
    destruct (scaled_ok k w 0 (Rabs (B2R core)) 1 Fk Fv (moderate_scale2 _ _ Mk Mc)) as (Fs & Vs & _); try (rewrite ?Rabs_R0; pose proof (Rabs_pos (B2R core)); lra).
    destruct (scaled_ok k w' 0 (Rabs (B2R core)) 1 Fk Fv' (moderate_scale2 _ _ Mk Mc)) as (Fs' & Vs' & _); try (rewrite ?Rabs_R0; pose proof (Rabs_pos (B2R core)); lra).
    intros E E'. injection E as <-. injection E' as <-. rewrite Vs, Vs'. apply rnd_mono, Rmult_le_compat_l; [exact Pk|]. rewrite Vv, Vv'. apply rnd_mono, Rmult_le_compat_l; [exact Pc|].
    assert (A : forall x : f64, is_finite x = true -> 0 <= B2R x <= 1 -> is_finite (Babs x) = true /\ B2R (Babs x) = B2R x). { intros x X X'. destruct (abs_val x X) as [Y Y']. rewrite Y', Rabs_pos_eq by lra. auto. }
    destruct (A f Ff Rf) as [Af Bf]. destruct (A f' Ff' Rf') as [Af' Bf']. destruct (A r Gr Rr) as [Ar Br]. destruct (A r' Gr' Rr') as [Ar' Br'].
    apply Hm; try assumption; rewrite ?Bf, ?Bf'; try lra. rewrite Vf, Vf'. apply rnd_mono. apply Rplus_le_compat_l, Ropp_le_contravar. apply Hm; try assumption; rewrite ?Br, ?Br'; lra.
  Qed.

End Power.
