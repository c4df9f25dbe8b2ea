(** Lemmas for C101. *)
From Coq Require Import ZArith Bool Reals Lra Lia List Permutation Sorted.
From Flocq Require Import Core.Core Plus_error Mult_error Relative IEEE754.BinarySingleNaN.
From Verif Require Import Base FloatComp FloatCompProofs FloatCompAcc FloatSource SpecFloatSource FloatSourceProofs FloatSpace SpecFloatSpace FloatSpaceProofs.
From Verif Require Import Profile SpecProfile ProfileProofs FloatProfile SpecFloatProfile FloatProfileProofs.
Open Scope R_scope.
Local Instance p53pd : Prec_gt_0 53 := eq_refl.
Local Notation bp := (bpow radix2).

Section Power.
  Variable pow : f64 -> f64 -> f64.
  Hypothesis Hpow : power_of_unit pow.

  (** ** The parabola on a pedestal *)
  Lemma core_ok core ped alpha beta rp r M : is_finite core = true -> is_finite ped = true -> is_finite alpha = true -> is_finite beta = true -> is_finite rp = true -> is_finite r = true ->
    moderate M -> 0 <= M -> Rabs (B2R core) <= M -> Rabs (B2R ped) <= M -> 0 < B2R alpha -> 0 < B2R beta -> 0 <= B2R r < B2R rp -> B2R rp <= 1 ->
    let s := fadd ped (fmul (fsub core ped) (pow (clip64 f0 f1 (fsub f1 (pow (fdiv r rp) beta))) alpha)) in
    is_finite s = true /\ Rabs (B2R s) <= 4 * M /\
    Rabs (B2R s - (B2R ped + (B2R core - B2R ped) * pw (1 - pw (B2R r / B2R rp) (B2R beta)) (B2R alpha))) <= M * (17 * uu + 2 * power_gap (B2R alpha) (5 * uu + power_gap (B2R beta) uu)) /\
    (exists t, 0 <= t <= 1 /\ Rabs (B2R s - (B2R ped + (B2R core - B2R ped) * t)) <= 9 * uu * M) /\
    (B2R r = 0 -> Rabs (B2R s - B2R core) <= 9 * uu * M).
  Proof.
    intros Fc Fp Fa Fb Frp Fr MM PM Bc Bp Pa Pb Hr Hrp. pose proof uu_small as U. pose proof (moderate_scale _ MM) as SM. rewrite Rabs_pos_eq in SM by exact PM.
    assert (S1 : scale 1) by (split; [change 1 with (bp 0); apply bpow_le; lia|change 1 with (bp 0) at 1; apply bpow_le; lia]).
    assert (Q01 : 0 <= B2R r / B2R rp <= 1). { split; [apply Rmult_le_pos; [lra|left; apply Rinv_0_lt_compat; lra]|]. apply (Rmult_le_reg_r (B2R rp)); [lra|]. unfold Rdiv. rewrite Rmult_assoc, Rinv_l; lra. }
    destruct (fdiv_about 1 1 r rp S1 (k30 1 ltac:(lra)) Fr Frp) as [Fq Eq]; [lra|rewrite Rabs_pos_eq; lra|].
    assert (Rq : 0 <= B2R (fdiv r rp) <= 1 /\ (B2R r = 0 -> B2R (fdiv r rp) = 0)).
    { rewrite (fdiv_val r rp); [|split; [exact Fr|lra]|split; [exact Frp|lra]|lra|lra]. split; [now apply rnd_unit|]. intros ->. unfold Rdiv. rewrite Rmult_0_l. apply rnd_0. }
    destruct Rq as [Rq Q0]. set (q := fdiv r rp) in *. set (Q := B2R r / B2R rp) in *.
    destruct (Hpow q beta Fq Fb Rq Pb) as (F1 & R1 & E1 & Z1 & _). rewrite roundoff_uu in E1. set (p1 := pow q beta) in *.
    destruct (one_minus p1 F1 R1) as (F2 & V2 & R2 & E2). destruct (clip_val _ F2) as [F3 V3].
    assert (V3' : B2R (clip64 f0 f1 (fsub f1 p1)) = B2R (fsub f1 p1)). { rewrite V3. unfold clamp01. rewrite Rmax_left, Rmin_left; lra. }
    set (t := clip64 f0 f1 (fsub f1 p1)) in *. clear V3. rewrite <- V3' in R2, E2, V2.
    destruct (Hpow t alpha F3 Fa R2 Pa) as (F4 & R4 & E4 & _ & Y1). rewrite roundoff_uu in E4. set (ta := pow t alpha) in *.
    assert (G1 : Rabs (pw (B2R q) (B2R beta) - pw Q (B2R beta)) <= power_gap (B2R beta) uu) by (apply gap_ok; try assumption; lra).
    assert (P01 : 0 <= pw Q (B2R beta) <= 1) by (split; [apply pw_nonneg|apply pw_le1; lra]).
    assert (G2 : Rabs (B2R t - (1 - pw Q (B2R beta))) <= 5 * uu + power_gap (B2R beta) uu).
    { replace (B2R t - (1 - pw Q (B2R beta))) with ((B2R t - (1 - B2R p1)) + (- (B2R p1 - pw (B2R q) (B2R beta)) + - (pw (B2R q) (B2R beta) - pw Q (B2R beta)))) by ring.
      eapply Rle_trans; [apply Rabs_triang|]. pose proof (Rabs_triang (- (B2R p1 - pw (B2R q) (B2R beta))) (- (pw (B2R q) (B2R beta) - pw Q (B2R beta)))) as T. rewrite !Rabs_Ropp in T. lra. }
    assert (G3 : Rabs (pw (B2R t) (B2R alpha) - pw (1 - pw Q (B2R beta)) (B2R alpha)) <= power_gap (B2R alpha) (5 * uu + power_gap (B2R beta) uu)) by (apply gap_ok; try assumption; lra).
    set (X := pw (1 - pw Q (B2R beta)) (B2R alpha)) in *. set (g := power_gap (B2R alpha) _) in *.
    assert (G4 : Rabs (B2R ta - X) <= 4 * uu + g). { replace (B2R ta - X) with ((B2R ta - pw (B2R t) (B2R alpha)) + (pw (B2R t) (B2R alpha) - X)) by ring. eapply Rle_trans; [apply Rabs_triang|]. lra. }
    assert (D0 : Rabs (B2R core - B2R ped) <= 2 * M). { unfold Rminus. eapply Rle_trans; [apply Rabs_triang|]. rewrite Rabs_Ropp. lra. }
    destruct (fsub_about M 2 core ped SM (k30 2 ltac:(lra)) Fc Fp D0) as [F5 E5]. set (d := fsub core ped) in *.
    assert (UM : uu * M <= / 1024 * M) by (apply Rmult_le_compat_r; lra).
    assert (B5 : Rabs (B2R d) <= 2 * M + / 256 * M). { replace (B2R d) with ((B2R d - (B2R core - B2R ped)) + (B2R core - B2R ped)) by ring. eapply Rle_trans; [apply Rabs_triang|]. lra. }
    assert (B6 : Rabs (B2R d * B2R ta) <= 3 * M). { rewrite Rabs_mult, (Rabs_pos_eq (B2R ta)) by lra. pose proof (Rabs_pos (B2R d)). nra. }
    assert (B6' : Rabs (B2R d * B2R ta) <= 2 * M + / 256 * M). { rewrite Rabs_mult, (Rabs_pos_eq (B2R ta)) by lra. pose proof (Rabs_pos (B2R d)). nra. }
    destruct (fmul_about M 3 d ta SM (k30 3 ltac:(lra)) F5 F4 B6) as [F7 E7]. set (pr := fmul d ta) in *.
    assert (B7 : Rabs (B2R ped + B2R pr) <= 4 * M - / 128 * M). { replace (B2R ped + B2R pr) with (B2R ped + ((B2R pr - B2R d * B2R ta) + B2R d * B2R ta)) by ring.
      eapply Rle_trans; [apply Rabs_triang|]. pose proof (Rabs_triang (B2R pr - B2R d * B2R ta) (B2R d * B2R ta)). lra. }
    destruct (fadd_about M 4 ped pr SM (k30 4 ltac:(lra)) Fp F7) as [F8 E8]; [lra|]. cbv zeta. set (s := fadd ped pr) in *.
    assert (K : Rabs (B2R s - (B2R ped + (B2R core - B2R ped) * B2R ta)) <= 9 * uu * M).
    { replace (B2R s - (B2R ped + (B2R core - B2R ped) * B2R ta)) with ((B2R s - (B2R ped + B2R pr)) + ((B2R pr - B2R d * B2R ta) + (B2R d - (B2R core - B2R ped)) * B2R ta)) by ring.
      eapply Rle_trans; [apply Rabs_triang|]. pose proof (Rabs_triang (B2R pr - B2R d * B2R ta) ((B2R d - (B2R core - B2R ped)) * B2R ta)) as T. rewrite (Rabs_mult (B2R d - _)), (Rabs_pos_eq (B2R ta)) in T by lra.
      pose proof (Rabs_pos (B2R d - (B2R core - B2R ped))). assert (Rabs (B2R d - (B2R core - B2R ped)) * B2R ta <= Rabs (B2R d - (B2R core - B2R ped))) by nra. lra. }
    split; [exact F8|]. split; [|split; [|split]].
    - replace (B2R s) with ((B2R s - (B2R ped + B2R pr)) + (B2R ped + B2R pr)) by ring. eapply Rle_trans; [apply Rabs_triang|]. lra.
    - replace (B2R s - (B2R ped + (B2R core - B2R ped) * X)) with ((B2R s - (B2R ped + (B2R core - B2R ped) * B2R ta)) + (B2R core - B2R ped) * (B2R ta - X)) by ring.
      eapply Rle_trans; [apply Rabs_triang|]. rewrite (Rabs_mult (B2R core - B2R ped)). assert (Rabs (B2R core - B2R ped) * Rabs (B2R ta - X) <= (2 * M) * (4 * uu + g)) by (apply Rmult_le_compat; try apply Rabs_pos; assumption). lra.
    - exists (B2R ta). split; [exact R4|exact K].
    - intro Z. assert (B2R ta = 1) as T1. { apply Y1. rewrite V2, (Z1 (Q0 Z)), Rminus_0_r. apply rnd_id, fmt_1. }
      rewrite T1 in K. replace (B2R s - B2R core) with (B2R s - (B2R ped + (B2R core - B2R ped) * 1)) by ring. exact K.
  Qed.
End Power.

Lemma rel_sub (x y : f64) : Rabs (rnd (B2R x - B2R y) - (B2R x - B2R y)) <= uu * Rabs (B2R x - B2R y).
Proof. unfold Rminus at 2 3 4. apply add_rel; [apply B2R_fmt|]. apply generic_format_opp, B2R_fmt. Qed.
Lemma below_one (x : f64) : B2R x < 1 -> bp (-53) <= 1 - B2R x.
Proof.
  intro H. pose proof (pred_ge_gt radix2 fx (B2R x) 1 (B2R_fmt x) fmt_1 H) as L. change 1 with (bp 0) in L. rewrite pred_bpow in L. change (fx 0) with (-53)%Z in L. change (bp 0) with 1 in L. lra.
Qed.
Lemma ped_ok ped sep rp r M : is_finite ped = true -> is_finite sep = true -> is_finite rp = true -> is_finite r = true ->
  moderate M -> 0 <= M -> Rabs (B2R ped) <= M -> Rabs (B2R sep) <= M -> 0 <= B2R rp <= B2R r -> B2R r <= 1 -> B2R rp < 1 ->
  let s := fadd sep (fdiv (fmul (fsub ped sep) (fsub f1 r)) (fsub f1 rp)) in
  is_finite s = true /\ Rabs (B2R s) <= 4 * M /\
  Rabs (B2R s - (B2R sep + (B2R ped - B2R sep) * ((1 - B2R r) / (1 - B2R rp)))) <= 17 * uu * M /\
  (B2R r = 1 -> B2R s = B2R sep).
Proof.
  intros Fp Fs Frp Fr MM PM Bp Bs Hr Hr1 Hrp. pose proof uu_small as U. pose proof (moderate_scale _ MM) as SM. rewrite Rabs_pos_eq in SM by exact PM.
  assert (UM : uu * M <= / 1024 * M) by (apply Rmult_le_compat_r; lra). destruct f1_val as [F1 V1].
  destruct (one_minus r Fr ltac:(lra)) as (Fw & Vw & Rw & _). destruct (one_minus rp Frp ltac:(lra)) as (Fb & Vb & Rb & _).
  pose proof (rel_sub f1 r) as Ew. rewrite V1, <- Vw in Ew. pose proof (rel_sub f1 rp) as Eb. rewrite V1, <- Vb in Eb.
  assert (Lwb : B2R (fsub f1 r) <= B2R (fsub f1 rp)) by (rewrite Vw, Vb; apply rnd_mono; lra).
  set (w := fsub f1 r) in *. set (b := fsub f1 rp) in *. set (W := 1 - B2R r) in *. set (B := 1 - B2R rp) in *. pose proof (below_one rp Hrp) as LB. fold B in LB. pose proof (bpow_gt_0 radix2 (-53)) as P53.
  assert (HW : 0 <= W <= B) by (unfold W, B; lra). assert (HB1 : B <= 1) by (unfold B; lra). rewrite (Rabs_pos_eq W) in Ew by lra. rewrite (Rabs_pos_eq B) in Eb by lra.
  assert (Hb : B * (1 - uu) <= B2R b). { pose proof (Rle_abs (- (B2R b - B))) as T. rewrite Rabs_Ropp in T. lra. } assert (Pb : 0 < B2R b) by nra.
  assert (Hw : B2R w <= W * (1 + uu)). { pose proof (Rle_abs (B2R w - W)) as T. lra. }
  assert (D0 : Rabs (B2R ped - B2R sep) <= 2 * M). { unfold Rminus. eapply Rle_trans; [apply Rabs_triang|]. rewrite Rabs_Ropp. lra. }
  destruct (fsub_about M 2 ped sep SM (k30 2 ltac:(lra)) Fp Fs D0) as [F5 E5]. set (d := fsub ped sep) in *. set (D := B2R ped - B2R sep) in *.
  assert (B5 : Rabs (B2R d) <= 2 * M + / 256 * M). { replace (B2R d) with ((B2R d - D) + D) by ring. eapply Rle_trans; [apply Rabs_triang|]. lra. }
  assert (SMB : scale (M * B)). { apply moderate_bp in MM. rewrite Rabs_pos_eq in MM by exact PM. destruct SM. split.
    - apply Rle_trans with (bp (-90) * bp (-53)); [rewrite <- bpow_plus; apply bpow_le; lia|]. apply Rmult_le_compat; try lra. apply bpow_ge_0.
    - apply Rle_trans with (M * 1); [apply Rmult_le_compat_l; lra|lra]. }
  assert (MB : 0 <= M * B) by (apply Rmult_le_pos; lra).
  assert (B6 : Rabs (B2R d * B2R w) <= 3 * (M * B)). { rewrite Rabs_mult, (Rabs_pos_eq (B2R w)) by lra. apply Rle_trans with ((2 * M + / 256 * M) * (B * (1 + / 1024))); [|nra].
    apply Rmult_le_compat; try lra; try apply Rabs_pos. apply Rle_trans with (1 := Hw). apply Rmult_le_compat; lra. }
  destruct (fmul_about (M * B) 3 d w SMB (k30 3 ltac:(lra)) F5 Fw B6) as [F6 E6]. set (p := fmul d w) in *.
  assert (WB : 0 <= B2R w / B2R b <= 1). { split; [apply Rmult_le_pos; [lra|left; apply Rinv_0_lt_compat; lra]|]. apply (Rmult_le_reg_r (B2R b)); [lra|]. unfold Rdiv. rewrite Rmult_assoc, Rinv_l; lra. }
  assert (BB : B / B2R b <= 1 + / 512). { apply (Rmult_le_reg_r (B2R b)); [lra|]. unfold Rdiv. rewrite Rmult_assoc, Rinv_l by lra. nra. }
  assert (BB0 : 0 <= B / B2R b) by (apply Rmult_le_pos; [lra|left; apply Rinv_0_lt_compat; lra]).
  assert (E7 : Rabs (B2R p / B2R b - B2R d * (B2R w / B2R b)) <= 3 * uu * M * (1 + / 512)).
  { replace (B2R p / B2R b - B2R d * (B2R w / B2R b)) with ((B2R p - B2R d * B2R w) * / B2R b) by (field; lra). rewrite Rabs_mult, (Rabs_pos_eq (/ B2R b)) by (left; apply Rinv_0_lt_compat; lra).
    apply Rle_trans with (3 * (uu * (M * B)) * / B2R b); [apply Rmult_le_compat_r; [left; apply Rinv_0_lt_compat; lra|exact E6]|].
    replace (3 * (uu * (M * B)) * / B2R b) with (3 * uu * M * (B / B2R b)) by (unfold Rdiv; ring). apply Rmult_le_compat_l; [|exact BB]. apply Rmult_le_pos; lra. }
  assert (B7 : Rabs (B2R p / B2R b) <= 2 * M + / 64 * M).
  { replace (B2R p / B2R b) with ((B2R p / B2R b - B2R d * (B2R w / B2R b)) + B2R d * (B2R w / B2R b)) by ring. eapply Rle_trans; [apply Rabs_triang|].
    rewrite (Rabs_mult (B2R d)), (Rabs_pos_eq (B2R w / B2R b)) by lra. pose proof (Rabs_pos (B2R d)). assert (Rabs (B2R d) * (B2R w / B2R b) <= Rabs (B2R d)) by nra. nra. }
  destruct (fdiv_about M 3 p b SM (k30 3 ltac:(lra)) F6 Fb) as [F8 E8]; [lra|lra|]. set (q := fdiv p b) in *.
  assert (WWB : 0 <= W / B <= 1). { split; [apply Rmult_le_pos; [lra|left; apply Rinv_0_lt_compat; lra]|]. apply (Rmult_le_reg_r B); [lra|]. unfold Rdiv. rewrite Rmult_assoc, Rinv_l; lra. }
  assert (E9 : Rabs (B2R w / B2R b - W / B) <= 2 * uu * (1 + / 512)).
  { replace (B2R w / B2R b - W / B) with (((B2R w - W) + - (W / B * (B2R b - B))) / B2R b) by (field; lra). unfold Rdiv at 1. rewrite Rabs_mult, (Rabs_pos_eq (/ B2R b)) by (left; apply Rinv_0_lt_compat; lra).
    assert (T : Rabs (B2R w - W + - (W / B * (B2R b - B))) <= 2 * uu * B). { eapply Rle_trans; [apply Rabs_triang|]. rewrite Rabs_Ropp, Rabs_mult, (Rabs_pos_eq (W / B)) by lra.
      assert (W / B * Rabs (B2R b - B) <= 1 * (uu * B)) by (apply Rmult_le_compat; try lra; apply Rabs_pos). assert (uu * W <= uu * B) by (apply Rmult_le_compat_l; lra). lra. }
    apply Rle_trans with (2 * uu * B * / B2R b); [apply Rmult_le_compat_r; [left; apply Rinv_0_lt_compat; lra|exact T]|]. replace (2 * uu * B * / B2R b) with (2 * uu * (B / B2R b)) by (unfold Rdiv; ring). apply Rmult_le_compat_l; lra. }
  assert (E10 : Rabs (B2R q - D * (W / B)) <= 13 * uu * M).
  { replace (B2R q - D * (W / B)) with ((B2R q - B2R p / B2R b) + ((B2R p / B2R b - B2R d * (B2R w / B2R b)) + ((B2R d - D) * (B2R w / B2R b) + D * (B2R w / B2R b - W / B)))) by ring.
    eapply Rle_trans; [apply Rabs_triang|]. pose proof (Rabs_triang (B2R p / B2R b - B2R d * (B2R w / B2R b)) ((B2R d - D) * (B2R w / B2R b) + D * (B2R w / B2R b - W / B))) as T1.
    pose proof (Rabs_triang ((B2R d - D) * (B2R w / B2R b)) (D * (B2R w / B2R b - W / B))) as T2. rewrite (Rabs_mult (B2R d - D)), (Rabs_mult D), (Rabs_pos_eq (B2R w / B2R b)) in T2 by lra.
    assert (Rabs (B2R d - D) * (B2R w / B2R b) <= 2 * (uu * M) * 1) by (apply Rmult_le_compat; try lra; apply Rabs_pos).
    assert (Rabs D * Rabs (B2R w / B2R b - W / B) <= (2 * M) * (2 * uu * (1 + / 512))) by (apply Rmult_le_compat; try assumption; apply Rabs_pos). nra. }
  assert (B10 : Rabs (B2R q) <= 2 * M + / 32 * M). { replace (B2R q) with ((B2R q - B2R p / B2R b) + B2R p / B2R b) by ring. eapply Rle_trans; [apply Rabs_triang|]. lra. }
  assert (B11 : Rabs (B2R sep + B2R q) <= 4 * M - / 128 * M) by (eapply Rle_trans; [apply Rabs_triang|]; lra).
  destruct (fadd_about M 4 sep q SM (k30 4 ltac:(lra)) Fs F8) as [F11 E11]; [lra|]. cbv zeta. set (s := fadd sep q) in *.
  split; [exact F11|]. split; [|split].
  - replace (B2R s) with ((B2R s - (B2R sep + B2R q)) + (B2R sep + B2R q)) by ring. eapply Rle_trans; [apply Rabs_triang|]. lra.
  - replace (B2R s - (B2R sep + D * (W / B))) with ((B2R s - (B2R sep + B2R q)) + (B2R q - D * (W / B))) by ring. eapply Rle_trans; [apply Rabs_triang|]. lra.
  - intro Z. assert (W0 : B2R w = 0). { rewrite Vw. unfold W. rewrite Z. replace (1 - 1) with 0 by ring. apply rnd_0. }
    assert (P0 : B2R p = 0). { apply fmul_zero; [exact F5|exact Fw|]. rewrite W0. ring. }
    assert (Q0 : B2R q = 0). { rewrite P0 in *. unfold q. pose proof (Bdiv_correct 53 1024 Hprec64 Hmax64 mode_NE p b ltac:(lra)) as C. rewrite fexp64 in C. change (round_mode mode_NE) with ZnearestE in C. rewrite P0 in C. unfold Rdiv in C. rewrite Rmult_0_l, rnd_0, Rabs_R0 in C.
      rewrite Rlt_bool_true in C by apply bpow_gt_0. apply C. }
    unfold s. destruct (fadd_cases sep q Fs F8) as [(_ & E' & _)|(L' & _)].
    + rewrite E', Q0, Rplus_0_r. apply rnd_id, B2R_fmt.
    + exfalso. rewrite Q0, Rplus_0_r, (rnd_id _ (B2R_fmt sep)) in L'. pose proof (fin_lt sep). lra.
Qed.
