(** Lemmas for C103: mean energies and standard deviations. *)
From Coq Require Import ZArith Bool Reals Lra Lia List Permutation.
From Flocq Require Import Core.Core IEEE754.BinarySingleNaN.
From Verif Require Import Base Reactions FloatComp FloatCompProofs FloatCompAcc FloatSource SpecFloatSource FloatSourceProofs FloatSpace FloatSpaceProofs FloatProfileProofs.
From Verif Require Import FloatReactivity SpecFloatReactivity FloatReactivityProofs FloatGeometryProofs.
From Verif Require Import Energy SpecEnergy EnergyProofs FloatEnergy SpecFloatEnergy FloatEnergyProofs FloatSpectrumProofs FloatGaussProofs FloatMGaussProofs.
Open Scope R_scope.
Local Notation bp := (bpow radix2).

Lemma fadd_r (x y : f64) X Y r : fin_nn x -> fin_nn y -> rclose r (B2R x) X -> rclose r (B2R y) Y -> 0 <= r -> r * uu <= / 100 -> X + Y <= 1000000000000 ->
  fin_nn (fadd x y) /\ rclose (r + 1.001) (B2R (fadd x y)) (X + Y).
Proof.
  intros Fx Fy Rx Ry H0 H1 B. pose proof (rclose_plus _ _ _ _ _ Rx Ry) as R. pose proof (rclose_size _ _ _ H0 H1 R) as S.
  destruct (fadd_close x y Fx Fy) as [F C]. { apply Rle_trans with (bp 45); [change (bp 45) with 35184372088832; lra|apply bpow_le; lia]. }
  split; [exact F|]. apply rclose_of_close in C. change (INR 1) with 1 in C. eapply rclose_weaken; [|exact (rclose_trans _ _ _ _ _ C R)]. lra.
Qed.
Lemma one_r : fin_nn f1 /\ forall r, 0 <= r -> rclose r (B2R f1) 1.
Proof. destruct f1_value as [F V]. split; [split; [exact F|rewrite V; lra]|]. intros r Hr. rewrite V. apply rclose_refl; lra. Qed.
Lemma exp_10 : 1000 <= exp 10.
Proof.
  assert (E : forall n, 2 ^ n <= exp (INR n)). { induction n as [|n IH]; [cbn; rewrite exp_0; lra|]. rewrite S_INR, exp_plus. cbn [pow]. rewrite Rmult_comm. apply Rmult_le_compat; try lra; [apply pow_le; lra|]. pose proof (exp_ineq1 1 ltac:(lra)). lra. }
  specialize (E 10%nat). replace (INR 10) with 10 in E by (rewrite INR_IZR_INZ; reflexivity). lra.
Qed.
Lemma ln_le x y : 0 < x -> x <= y -> ln x <= ln y.
Proof. intros Hx [H| -> ]; [left; now apply ln_increasing|lra]. Qed.
Section Temperature.
  Variables (spow : f64 -> f64 -> f64) (T : f64).
  Hypotheses (Sp : good_pow spow) (FT : is_finite T = true) (BT : 0.001 <= B2R T <= 40).
  Let t : R := B2R T.
  Lemma ln_t : -10 <= ln t <= 10.
  Proof.
    pose proof exp_10 as E. pose proof (exp_pos 10). split.
    - rewrite <- (ln_exp (-10)). apply ln_le; [apply exp_pos|]. change (-10) with (- (10)). rewrite exp_Ropp. apply Rle_trans with (/ 1000); [apply Rinv_le_contravar; lra|unfold t; lra].
    - rewrite <- (ln_exp 10). apply ln_le; unfold t; lra.
  Qed.
  Lemma pow_size A : 0 < A <= 2 -> 0.000001 <= Rpower t A <= 1600.
  Proof.
    intro HA. assert (T0 : 0 < t) by (unfold t; lra). pose proof (Rpower_2 t T0) as R2. assert (B := BT). fold t in B.
    destruct (Rle_lt_dec t 1) as [L|L].
    - assert (L0 : ln t <= 0) by (rewrite <- ln_1; apply ln_le; lra). split.
      + apply Rle_trans with (Rpower t 2); [rewrite R2; nra|]. unfold Rpower. apply exp_le. nra.
      + apply Rle_trans with (exp 0); [unfold Rpower; apply exp_le; nra|rewrite exp_0; lra].
    - assert (L0 : 0 <= ln t) by (rewrite <- ln_1; apply ln_le; lra). split.
      + apply Rle_trans with (exp 0); [rewrite exp_0; lra|unfold Rpower; apply exp_le; nra].
      + apply Rle_trans with (Rpower t 2); [unfold Rpower; apply exp_le; nra|rewrite R2; nra].
  Qed.
  Lemma pow_r (y : f64) A : is_finite y = true -> 0 < A <= 2 -> rclose 1.01 (B2R y) A -> fin_nn (spow T y) /\ rclose (9.01 + 11 * A) (B2R (spow T y)) (Rpower t A).
  Proof.
    intros Fy HA R. pose proof uu_pos. pose proof uu_1e15. pose proof ln_t as L. pose proof (pow_size A HA) as P. pose proof (rclose_abs 1.01 _ _ ltac:(lra) ltac:(lra) R) as E.
    assert (D : Rabs (B2R y * ln t - A * ln t) <= 11 * A * uu).
    { replace (B2R y * ln t - A * ln t) with ((B2R y - A) * ln t) by ring. rewrite Rabs_mult. apply Rle_trans with (1.011 * (1.01 * uu) * A * 10); [apply Rmult_le_compat; try apply Rabs_pos; [exact E|apply Rabs_le; lra]|]. assert (0 <= uu * A) by (apply Rmult_le_pos; lra). lra. }
    pose proof (rclose_exp _ _ _ D) as R1. change (exp (A * ln t)) with (Rpower t A) in R1. change (exp (B2R y * ln t)) with (Rpower t (B2R y)) in R1.
    assert (SA : 11 * A * uu <= / 100) by nra. pose proof (rclose_size (11 * A) _ _ ltac:(lra) ltac:(lra) R1) as S1.
    assert (H1 : four_ulp (spow T y) (Rpower (B2R T) (B2R y))).
    { apply Sp; [exact FT|exact Fy|lra|]. fold t. apply (two_1000 _ (-30) 30); [|lia|lia]. change (bp (-30)) with (/ 1073741824). change (bp 30) with 1073741824. lra. }
    fold t in H1. destruct (four_close _ _ (Rlt_le _ _ (exp_pos _)) H1) as [F C]. split; [exact F|]. apply rclose_of_close in C. replace (INR 9) with 9 in C by (cbn; lra). eapply rclose_weaken; [|exact (rclose_trans _ _ _ _ _ C R1)]. lra.
  Qed.
  Lemma t_r : fin_nn T /\ rclose 0 (B2R T) t.
  Proof. split; [split; [exact FT|lra]|]. apply rclose_refl; unfold t; lra. Qed.
  Lemma two_thirds_r : fin_nn (fdiv f2 (f64_of_Z 3)) /\ rclose 1.01 (B2R (fdiv f2 (f64_of_Z 3))) (2 / 3).
  Proof.
    pose proof uu_pos. pose proof uu_1e15. destruct (int_r 2 ltac:(lia)) as [F2 R2]. destruct (int_r 3 ltac:(lia)) as [F3 R3]. destruct (fdiv_r _ _ _ _ _ _ F2 F3 R2 R3 ltac:(lra) ltac:(lra) ltac:(lra) ltac:(lra)) as [F R].
    split; [exact F|]. eapply rclose_weaken; [|exact R]. lra.
  Qed.
  Lemma pow23_size : Rpower t (2 / 3) <= 12.
  Proof.
    apply Rle_trans with (Rpower 1728 (1 / 3)).
    - replace (2 / 3) with (2 * (1 / 3)) by lra. rewrite <- Rpower_mult. apply Rpower_mono; [|lra]. assert (T0 : 0 < t) by (unfold t; lra). rewrite (Rpower_2 t T0). assert (B := BT). fold t in B. split; nra.
    - right. replace 1728 with (Rpower 12 3) by (rewrite Rpower_3; lra). rewrite Rpower_mult. replace (3 * (1 / 3)) with 1 by lra. apply Rpower_1. lra.
  Qed.
  (** Second half of the fit, given its denominator. *)
  Lemma fit_tail (x1 x4 den : f64) A1 A4 DEN r : fin_nn x1 -> rclose 1.001 (B2R x1) A1 -> 0.0001 <= A1 <= 10 -> fin_nn x4 -> rclose 1.001 (B2R x4) A4 -> 0.00001 <= A4 <= 2 ->
    fin_nn den -> rclose r (B2R den) DEN -> 0.5 <= DEN <= 100 -> 0 <= r <= 100 ->
    let F := A1 / DEN * Rpower t (2 / 3) + A4 * t in
    fin_nn (fadd (fmul (fdiv x1 den) (spow T (fdiv f2 (f64_of_Z 3)))) (fmul x4 T)) /\ rclose (r + 21) (B2R (fadd (fmul (fdiv x1 den) (spow T (fdiv f2 (f64_of_Z 3)))) (fmul x4 T))) F /\ 0 < F <= A1 / DEN * 12 + A4 * 40.
  Proof.
    intros F1 R1 B1 F4 R4 B4 FD RD BD Hr F. pose proof uu_pos. pose proof uu_1e15. assert (RU : r * uu <= / 1000) by nra. destruct t_r as [FTn RT]. destruct two_thirds_r as [F23 R23]. assert (B := BT). fold t in B.
    destruct (pow_r (fdiv f2 (f64_of_Z 3)) (2 / 3) (proj1 F23) ltac:(lra)) as [FP RP]; [eapply rclose_weaken; [|exact R23]; lra|]. pose proof (pow_size (2 / 3) ltac:(lra)) as PS. pose proof pow23_size as P12.
    assert (Q0 : 0.000001 <= A1 / DEN <= 20). { split; [apply (Rmult_le_reg_r DEN); [lra|]|apply (Rmult_le_reg_r DEN); [lra|]]; unfold Rdiv; rewrite Rmult_assoc, Rinv_l by lra; nra. }
    destruct (fdiv_r x1 den A1 DEN 1.001 r F1 FD R1 RD ltac:(lra) ltac:(lra) ltac:(lra) ltac:(lra)) as [FQ RQ].
    assert (M0 : 0.000000000001 <= A1 / DEN * Rpower t (2 / 3) <= 20 * 12) by (split; [replace 0.000000000001 with (0.000001 * 0.000001) by lra|]; apply Rmult_le_compat; lra).
    assert (RP' : rclose 16.4 (B2R (spow T (fdiv f2 (f64_of_Z 3)))) (Rpower t (2 / 3))) by (eapply rclose_weaken; [|exact RP]; lra).
    destruct (fmul_r _ _ (A1 / DEN) (Rpower t (2 / 3)) (1.001 + r + 1.001) 16.4 FQ FP RQ RP' ltac:(lra) ltac:(lra) ltac:(lra)) as [FM RM].
    assert (M4 : 0.00000001 <= A4 * t <= 80) by (split; [replace 0.00000001 with (0.00001 * 0.001) by lra|replace 80 with (2 * 40) by lra]; apply Rmult_le_compat; lra).
    destruct (fmul_r x4 T A4 t 1.001 0 F4 FTn R4 RT ltac:(lra) ltac:(lra) ltac:(lra)) as [FM4 RM4].
    apply (rclose_weaken _ (r + 19.45)) in RM; [|lra]. apply (rclose_weaken _ (r + 19.45)) in RM4; [|lra].
    destruct (fadd_r _ _ _ _ _ FM FM4 RM RM4 ltac:(lra) ltac:(lra) ltac:(lra)) as [FA RA]. split; [exact FA|]. split; [eapply rclose_weaken; [|exact RA]; lra|]. unfold F. split; [lra|].
    assert (A1 / DEN * Rpower t (2 / 3) <= A1 / DEN * 12) by (apply Rmult_le_compat_l; lra). assert (A4 * t <= A4 * 40) by (apply Rmult_le_compat_l; lra). lra.
  Qed.
  Lemma den_ok (x2 x3 : f64) A2 A3 : fin_nn x2 -> rclose 1.001 (B2R x2) A2 -> 0.001 <= A2 <= 1 -> fin_nn x3 -> rclose 1.001 (B2R x3) A3 -> 0 < A3 <= 2 -> A2 * Rpower t A3 <= 99 ->
    fin_nn (fadd f1 (fmul x2 (spow T x3))) /\ rclose (12.1 + 11 * A3) (B2R (fadd f1 (fmul x2 (spow T x3)))) (1 + A2 * Rpower t A3) /\ 1 <= 1 + A2 * Rpower t A3 <= 100.
  Proof.
    intros F2 R2 B2 F3 R3 B3 U. pose proof uu_pos. pose proof uu_1e15. destruct (pow_r x3 A3 (proj1 F3) B3) as [FP RP]; [eapply rclose_weaken; [|exact R3]; lra|]. pose proof (pow_size A3 B3) as PS.
    assert (M : 0.000000001 <= A2 * Rpower t A3) by (replace 0.000000001 with (0.001 * 0.000001) by lra; apply Rmult_le_compat; lra).
    assert (SM : (1.001 + (9.01 + 11 * A3) + 1.001) * uu <= / 100) by (apply Rle_trans with (40 * uu); [apply Rmult_le_compat_r|]; lra).
    destruct (fmul_r x2 _ A2 (Rpower t A3) 1.001 (9.01 + 11 * A3) F2 FP R2 RP ltac:(lra) ltac:(lra) ltac:(lra)) as [FM RM].
    destruct one_r as [F1 R1]. destruct (fadd_r f1 _ 1 _ _ F1 FM (R1 (1.001 + (9.01 + 11 * A3) + 1.001) ltac:(lra)) RM ltac:(lra) ltac:(lra) ltac:(lra)) as [FA RA]. split; [exact FA|]. split; [eapply rclose_weaken; [|exact RA]; lra|lra].
  Qed.
  (** The energy shift of D-D has a negative coefficient. *)
  Lemma den_neg (x3 : f64) : fin_nn x3 -> rclose 1.001 (B2R x3) 0.47 ->
    fin_nn (fadd f1 (fmul (dec64 (-40729) 6) (spow T x3))) /\ rclose 12 (B2R (fadd f1 (fmul (dec64 (-40729) 6) (spow T x3)))) (1 - 0.040729 * Rpower t 0.47) /\ 0.69 <= 1 - 0.040729 * Rpower t 0.47 <= 1.
  Proof.
    intros F3 R3. pose proof uu_pos. pose proof uu_1e15. assert (B := BT). fold t in B. destruct (pow_r x3 0.47 (proj1 F3) ltac:(lra)) as [FP RP]; [eapply rclose_weaken; [|exact R3]; lra|].
    assert (PS : 0 < Rpower t 0.47 <= 7.4). { split; [apply exp_pos|]. eapply Rle_trans; [apply (Rpower_le_sqrt t 0.47); lra|]. assert (sqrt t <= 6.4); [|lra]. apply Rsqr_incr_0_var; [|lra]. rewrite Rsqr_sqrt by lra. unfold Rsqr. lra. }
    set (P := Rpower t 0.47) in *. set (p := spow T x3) in *.
    destruct (dec64_value (-40729) 6 ltac:(vm_compute; reflexivity) ltac:(lia)) as [FX VX]. set (x := dec64 (-40729) 6) in *.
    assert (EX : Rabs (B2R x - - (0.040729)) <= 0.041 * uu).
    { rewrite VX. replace (IZR (-40729) / IZR (10 ^ 6)) with (- (0.040729)) by (change (10 ^ 6)%Z with 1000000%Z; lra). eapply Rle_trans; [apply rnd_rel|].
      - rewrite Rabs_left by lra. apply Rle_trans with (bp (-10)); [apply bpow_le; lia|]. change (bp (-10)) with (/ 1024). lra.
      - rewrite Rabs_left by lra. lra. }
    pose proof (rclose_abs (9.01 + 11 * 0.47) _ _ ltac:(lra) ltac:(lra) RP) as EP. assert (EP2 : Rabs (B2R p - P) <= 110 * uu). { eapply Rle_trans; [exact EP|]. apply Rle_trans with (1.011 * ((9.01 + 11 * 0.47) * uu) * 7.4); [apply Rmult_le_compat_l; lra|lra]. }
    assert (XB : Rabs (B2R x) <= 0.0408) by (apply Rabs_le_inv in EX; apply Rabs_le; lra).
    assert (M : Rabs (B2R x * B2R p - - (0.040729 * P)) <= 4.8 * uu).
    { assert (ID : forall a b c d, a * b - - (c * d) = a * (b - d) + (a - - c) * d) by (intros; ring). rewrite ID. eapply Rle_trans; [apply Rabs_triang|]. rewrite !Rabs_mult, (Rabs_pos_eq P) by lra.
      assert (Rabs (B2R x) * Rabs (B2R p - P) <= 0.0408 * (110 * uu)) by (apply Rmult_le_compat; try apply Rabs_pos; assumption). assert (Rabs (B2R x - - (0.040729)) * P <= 0.041 * uu * 7.4) by (apply Rmult_le_compat; [apply Rabs_pos|lra|exact EX|lra]). lra. }
    assert (M' := M). apply Rabs_le_inv in M'. assert (Y : 0 <= 0.040729 * P <= 0.302) by lra.
    destruct (fmul_about (/ 2) 1 x p (scale_of (/ 2) ltac:(lra)) (K30 1 ltac:(lra)) FX (proj1 FP)) as [FM EM]; [apply Rabs_le; lra|]. set (q := fmul x p) in *.
    assert (Q : Rabs (B2R q - - (0.040729 * P)) <= 5.4 * uu). { assert (ID : forall a b c, a - c = (a - b) + (b - c)) by (intros; ring). rewrite (ID _ (B2R x * B2R p)). eapply Rle_trans; [apply Rabs_triang|]. lra. }
    assert (Q' := Q). apply Rabs_le_inv in Q'. destruct f1_value as [F1 V1].
    destruct (fadd_about 1 1.01 f1 q (scale_of 1 ltac:(lra)) (K30 1.01 ltac:(lra)) F1 FM) as [FA EA]; [rewrite V1; apply Rabs_le; lra|]. rewrite V1 in EA. set (d := fadd f1 q) in *.
    assert (DE : Rabs (B2R d - (1 - 0.040729 * P)) <= 6.5 * uu). { assert (ID : forall a b c d, a - (d - c) = (a - (d + b)) + (b - - c)) by (intros; ring). rewrite (ID _ (B2R q)). eapply Rle_trans; [apply Rabs_triang|]. lra. }
    assert (R : rclose (1.02 * 9.5) (B2R d) (1 - 0.040729 * P)). { apply rclose_of_abs; [lra|lra|lra|]. eapply Rle_trans; [exact DE|]. apply Rle_trans with (9.5 * uu * 0.69); [lra|apply Rmult_le_compat_l; lra]. }
    split; [split; [exact FA|apply R]|]. split; [eapply rclose_weaken; [|exact R]; lra|lra].
  Qed.
  Lemma mean_abs (x : f64) (e : f64) E F re rf : fin_nn e -> rclose re (B2R e) E -> fin_nn x -> rclose rf (B2R x) F -> 2000 <= E <= 15000 -> 0 < F <= E / 10 -> 0 <= re <= 1.001 -> 0 <= rf <= 100 -> 1.011 * (re * E + rf * F) <= 3.9 * (E + F) ->
    is_finite (fadd e x) = true /\ Rabs (B2R (fadd e x) - (E + F)) <= 5 * (uu * (E + F)).
  Proof.
    intros Fe Re Fx Rx BE BF He Hf HH. pose proof uu_pos. pose proof uu_1e15. pose proof (rclose_abs re _ _ ltac:(lra) ltac:(nra) Re) as A. pose proof (rclose_abs rf _ _ ltac:(lra) ltac:(nra) Rx) as B.
    assert (S : Rabs (B2R e + B2R x - (E + F)) <= 3.9 * (uu * (E + F))).
    { replace (B2R e + B2R x - (E + F)) with ((B2R e - E) + (B2R x - F)) by ring. eapply Rle_trans; [apply Rabs_triang|]. assert (H2 : uu * (1.011 * (re * E + rf * F)) <= uu * (3.9 * (E + F))) by (apply Rmult_le_compat_l; lra). lra. }
    assert (UM : uu * (E + F) <= / 100000 * (E + F)) by (apply Rmult_le_compat_r; lra). assert (S' := S). apply Rabs_le_inv in S'.
    destruct (fadd_about (E + F) 1.001 e x (scale_of (E + F) ltac:(lra)) (K30 1.001 ltac:(lra)) (proj1 Fe) (proj1 Fx)) as [FA EA]; [apply Rabs_le; lra|].
    split; [exact FA|]. replace (B2R (fadd e x) - (E + F)) with ((B2R (fadd e x) - (B2R e + B2R x)) + (B2R e + B2R x - (E + F))) by ring. eapply Rle_trans; [apply Rabs_triang|]. lra.
  Qed.
  Lemma f_fwhm_r : fin_nn f_fwhm /\ rclose 1.03 (B2R f_fwhm) 2.3548200450309493.
  Proof.
    pose proof uu_pos. pose proof uu_1e15. destruct (normalize_exact 5302583338662979 (-51) false) as [F V]; [vm_compute; reflexivity|lia|]. fold f_fwhm in F, V. change (bp (-51)) with (/ 2251799813685248) in V.
    split; [split; [exact F|rewrite V; lra]|]. eapply rclose_weaken; [|apply (rclose_of_abs 1); [lra|lra|lra|]]; [lra|]. rewrite V, Rmult_1_l. rewrite uu_val. change (IZR (2 ^ 53)) with 9007199254740992. apply Rabs_le. lra.
  Qed.
  Lemma sigma_abs (x om : f64) OM F rf : fin_nn om -> rclose 1.001 (B2R om) OM -> 50 <= OM <= 200 -> fin_nn x -> rclose rf (B2R x) F -> 0 < F <= 0.06 -> 0 <= rf <= 66 ->
    let s := fdiv (fmul (fmul om (fadd f1 x)) (fsqrt T)) f_fwhm in let S := OM * (1 + F) * sqrt t / 2.3548200450309493 in
    is_finite s = true /\ Rabs (B2R s - S) <= 12 * (uu * S).
  Proof.
    intros Fo Ro BO Fx Rx BF Hf s S. pose proof uu_pos. pose proof uu_1e15. assert (B := BT). fold t in B. pose proof (rclose_abs rf _ _ ltac:(lra) ltac:(nra) Rx) as A.
    assert (A2 : Rabs (B2R x - F) <= 4.01 * uu). { eapply Rle_trans; [exact A|]. apply Rle_trans with (1.011 * (66 * uu) * 0.06); [apply Rmult_le_compat; try lra; nra|lra]. }
    assert (A' := A2). apply Rabs_le_inv in A'. destruct f1_value as [F1 V1].
    destruct (fadd_about 1 1.07 f1 x (scale_of 1 ltac:(lra)) (K30 1.07 ltac:(lra)) F1 (proj1 Fx)) as [FA EA]; [rewrite V1; apply Rabs_le; lra|]. rewrite V1 in EA. set (w := fadd f1 x) in *.
    assert (WE : Rabs (B2R w - (1 + F)) <= 5.1 * uu). { replace (B2R w - (1 + F)) with ((B2R w - (1 + B2R x)) + (B2R x - F)) by ring. eapply Rle_trans; [apply Rabs_triang|]. lra. }
    assert (Rw : rclose (1.02 * 5.1) (B2R w) (1 + F)). { apply rclose_of_abs; [lra|lra|lra|]. eapply Rle_trans; [exact WE|]. replace (5.1 * uu) with (5.1 * uu * 1) at 1 by ring. apply Rmult_le_compat_l; lra. }
    assert (Fw : fin_nn w) by (split; [exact FA|apply Rw]).
    destruct (fmul_r om w OM (1 + F) 1.001 (1.02 * 5.1) Fo Fw Ro Rw ltac:(lra) ltac:(lra)) as [FM RM]; [split; nra|].
    destruct (fsqrt_val T FT) as [FS ES]; [lra|]. fold t in ES. assert (SQ : 0.03 <= sqrt t <= 6.4). { split; [|apply Rsqr_incr_0_var; [rewrite Rsqr_sqrt by lra; unfold Rsqr; lra|lra]]. apply Rsqr_incr_0_var; [rewrite Rsqr_sqrt by lra; unfold Rsqr; lra|apply sqrt_pos]. }
    assert (Rs : rclose (1.02 * 1.011) (B2R (fsqrt T)) (sqrt t)) by (apply rclose_of_abs; [lra|lra|lra|exact ES]).
    assert (Fs : fin_nn (fsqrt T)) by (split; [exact FS|apply Rs]). assert (OB : 50 <= OM * (1 + F) <= 220) by (split; nra).
    destruct (fmul_r _ _ (OM * (1 + F)) (sqrt t) _ _ FM Fs RM Rs ltac:(lra) ltac:(lra)) as [FN RN]; [split; nra|]. destruct f_fwhm_r as [Ff Rf]. assert (OC : 1 <= OM * (1 + F) * sqrt t <= 2000) by (split; nra).
    destruct (fdiv_r _ _ _ _ _ _ FN Ff RN Rf ltac:(lra) ltac:(lra) ltac:(lra) ltac:(fold S; unfold S; lra)) as [FD RD]. fold s S in FD, RD. split; [apply FD|].
    eapply Rle_trans; [eapply rclose_abs; [| |exact RD]; lra|]. assert (0 <= S) by (unfold S; lra). assert (0 <= uu * S) by (apply Rmult_le_pos; lra). lra.
  Qed.

  (** The four fits. *)
  Definition shift_of (r : reaction) : R := match r with DT => 5.30509 / (1 + 2.4736e-3 * Rpower t 1.84) * Rpower t (2 / 3) + 1.3818 * t | _ => 4.69515 / (1 - 0.040729 * Rpower t 0.47) * Rpower t (2 / 3) + 0.81844 * t end.
  Definition width_of (r : reaction) : R := match r with DT => 5.1068e-4 / (1 + 7.6223e-3 * Rpower t 1.78) * Rpower t (2 / 3) + 8.7691e-5 * t | _ => 1.7013e-3 / (1 + 0.16888 * Rpower t 0.49) * Rpower t (2 / 3) + 7.9460e-4 * t end.
  Ltac lit := apply lit_r; [lia|lia|match goal with |- context [(10 ^ ?k)%Z] => let v := eval vm_compute in (10 ^ k)%Z in change (10 ^ k)%Z with v end; lra|lra].
  Lemma div_ge1 a d : 0 <= a -> 1 <= d -> a / d <= a.
  Proof. intros. apply (Rmult_le_reg_r d); [lra|]. unfold Rdiv. rewrite Rmult_assoc, Rinv_l by lra. nra. Qed.
  Lemma div_ge07 a d : 0 <= a -> 0.69 <= d -> a / d <= a * 1.45.
  Proof. intros. apply (Rmult_le_reg_r d); [lra|]. unfold Rdiv. rewrite Rmult_assoc, Rinv_l by lra. nra. Qed.
  Lemma dt_shift : fin_nn (fit64 spow (shift64 ballabio64_DT) T) /\ rclose 53.4 (B2R (fit64 spow (shift64 ballabio64_DT) T)) (shift_of DT) /\ 0 < shift_of DT <= 120.
  Proof.
    assert (F1 : fin_nn (dec64 530509 5) /\ rclose 1.001 (B2R (dec64 530509 5)) 5.30509) by lit. assert (F2 : fin_nn (dec64 24736 7) /\ rclose 1.001 (B2R (dec64 24736 7)) 2.4736e-3) by lit.
    assert (F3 : fin_nn (dec64 184 2) /\ rclose 1.001 (B2R (dec64 184 2)) 1.84) by lit. assert (F4 : fin_nn (dec64 13818 4) /\ rclose 1.001 (B2R (dec64 13818 4)) 1.3818) by lit.
    destruct F1, F2, F3, F4. pose proof (pow_size 1.84 ltac:(lra)). assert (PS : 2.4736e-3 * Rpower t 1.84 <= 99) by lra.
    destruct (den_ok (dec64 24736 7) (dec64 184 2) 2.4736e-3 1.84) as (FD & RD & BD); try assumption; try lra.
    destruct (fit_tail (dec64 530509 5) (dec64 13818 4) _ 5.30509 1.3818 _ _ ltac:(eassumption) ltac:(eassumption) ltac:(lra) ltac:(eassumption) ltac:(eassumption) ltac:(lra) FD RD ltac:(lra) ltac:(lra)) as (A & B & C & D).
    pose proof (div_ge1 5.30509 (1 + 2.4736e-3 * Rpower t 1.84) ltac:(lra) ltac:(lra)). split; [exact A|]. split; [eapply rclose_weaken; [|exact B]; lra|]. split; [exact C|]. unfold shift_of. lra.
  Qed.
  Lemma dd_shift : fin_nn (fit64 spow (shift64 ballabio64_DD) T) /\ rclose 33 (B2R (fit64 spow (shift64 ballabio64_DD) T)) (shift_of DDn) /\ 0 < shift_of DDn <= 115.
  Proof.
    assert (F1 : fin_nn (dec64 469515 5) /\ rclose 1.001 (B2R (dec64 469515 5)) 4.69515) by lit.
    assert (F3 : fin_nn (dec64 47 2) /\ rclose 1.001 (B2R (dec64 47 2)) 0.47) by lit. assert (F4 : fin_nn (dec64 81844 5) /\ rclose 1.001 (B2R (dec64 81844 5)) 0.81844) by lit.
    destruct F1, F3, F4. destruct (den_neg (dec64 47 2)) as (FD & RD & BD); try assumption.
    destruct (fit_tail (dec64 469515 5) (dec64 81844 5) _ 4.69515 0.81844 _ _ ltac:(eassumption) ltac:(eassumption) ltac:(lra) ltac:(eassumption) ltac:(eassumption) ltac:(lra) FD RD ltac:(lra) ltac:(lra)) as (A & B & C & D).
    pose proof (div_ge07 4.69515 (1 - 0.040729 * Rpower t 0.47) ltac:(lra) ltac:(lra)). split; [exact A|]. split; [eapply rclose_weaken; [|exact B]; lra|]. split; [exact C|]. unfold shift_of. lra.
  Qed.
  Lemma dt_width : fin_nn (fit64 spow (width64 ballabio64_DT) T) /\ rclose 66 (B2R (fit64 spow (width64 ballabio64_DT) T)) (width_of DT) /\ 0 < width_of DT <= 0.0097.
  Proof.
    assert (F1 : fin_nn (dec64 51068 8) /\ rclose 1.001 (B2R (dec64 51068 8)) 5.1068e-4) by lit. assert (F2 : fin_nn (dec64 76223 7) /\ rclose 1.001 (B2R (dec64 76223 7)) 7.6223e-3) by lit.
    assert (F3 : fin_nn (dec64 178 2) /\ rclose 1.001 (B2R (dec64 178 2)) 1.78) by lit. assert (F4 : fin_nn (dec64 87691 9) /\ rclose 1.001 (B2R (dec64 87691 9)) 8.7691e-5) by lit.
    destruct F1, F2, F3, F4. pose proof (pow_size 1.78 ltac:(lra)). assert (PS : 7.6223e-3 * Rpower t 1.78 <= 99) by lra.
    destruct (den_ok (dec64 76223 7) (dec64 178 2) 7.6223e-3 1.78) as (FD & RD & BD); try assumption; try lra.
    destruct (fit_tail (dec64 51068 8) (dec64 87691 9) _ 5.1068e-4 8.7691e-5 _ _ ltac:(eassumption) ltac:(eassumption) ltac:(lra) ltac:(eassumption) ltac:(eassumption) ltac:(lra) FD RD ltac:(lra) ltac:(lra)) as (A & B & C & D).
    pose proof (div_ge1 5.1068e-4 (1 + 7.6223e-3 * Rpower t 1.78) ltac:(lra) ltac:(lra)). split; [exact A|]. split; [eapply rclose_weaken; [|exact B]; lra|]. split; [exact C|]. unfold width_of. lra.
  Qed.
  Lemma dd_width : fin_nn (fit64 spow (width64 ballabio64_DD) T) /\ rclose 66 (B2R (fit64 spow (width64 ballabio64_DD) T)) (width_of DDn) /\ 0 < width_of DDn <= 0.0523.
  Proof.
    assert (B := BT). fold t in B.
    assert (F1 : fin_nn (dec64 17013 7) /\ rclose 1.001 (B2R (dec64 17013 7)) 1.7013e-3) by lit. assert (F2 : fin_nn (dec64 16888 5) /\ rclose 1.001 (B2R (dec64 16888 5)) 0.16888) by lit.
    assert (F3 : fin_nn (dec64 49 2) /\ rclose 1.001 (B2R (dec64 49 2)) 0.49) by lit. assert (F4 : fin_nn (dec64 79460 8) /\ rclose 1.001 (B2R (dec64 79460 8)) 7.9460e-4) by lit.
    destruct F1, F2, F3, F4. pose proof (Rpower_le_id t 0.49 ltac:(lra) ltac:(lra)). pose proof (pow_size 0.49 ltac:(lra)). assert (PS : 0.16888 * Rpower t 0.49 <= 99) by lra.
    destruct (den_ok (dec64 16888 5) (dec64 49 2) 0.16888 0.49) as (FD & RD & BD); try assumption; try lra.
    destruct (fit_tail (dec64 17013 7) (dec64 79460 8) _ 1.7013e-3 7.9460e-4 _ _ ltac:(eassumption) ltac:(eassumption) ltac:(lra) ltac:(eassumption) ltac:(eassumption) ltac:(lra) FD RD ltac:(lra) ltac:(lra)) as (A & B' & C & D).
    pose proof (div_ge1 1.7013e-3 (1 + 0.16888 * Rpower t 0.49) ltac:(lra) ltac:(lra)). split; [exact A|]. split; [eapply rclose_weaken; [|exact B']; lra|]. split; [exact C|]. unfold width_of. lra.
  Qed.
  Lemma sqrt_t : 0.0316 <= sqrt t <= 6.325.
  Proof. assert (B := BT). fold t in B. split; apply Rsqr_incr_0_var; try (rewrite Rsqr_sqrt by lra; unfold Rsqr; lra); [apply sqrt_pos|lra]. Qed.
  Lemma ballabio_close r : r = DT \/ r = DDn ->
    exists b, ballabio_spectrum64 r = Some b /\ is_finite (mean_energy64 spow b T) = true /\ is_finite (std_deviation64 spow b T) = true /\
      Rabs (B2R (mean_energy64 spow b T) - published_mean r t) <= 5 * (uu * published_mean r t) /\ Rabs (B2R (std_deviation64 spow b T) - published_sigma r t) <= 12 * (uu * published_sigma r t) /\
      10 * published_sigma r t <= published_mean r t <= 8192 * published_sigma r t /\ 1024 <= published_mean r t <= 16384.
  Proof.
    pose proof sqrt_t as SQ. intros [-> | -> ].
    - exists ballabio64_DT. destruct dt_shift as (FS & RS & BS). destruct dt_width as (FW & RW & BW). split; [reflexivity|].
      destruct (int_r 14021 ltac:(lia)) as [Fe Re]. destruct (mean_abs _ _ _ _ 0 53.4 Fe Re FS RS ltac:(lra) ltac:(lra) ltac:(lra) ltac:(lra) ltac:(lra)) as [FM EM].
      assert (Fo : fin_nn (dec64 177259 3) /\ rclose 1.001 (B2R (dec64 177259 3)) 177.259) by lit. destruct Fo as [Fo Ro].
      destruct (sigma_abs _ _ _ _ 66 Fo Ro ltac:(lra) FW RW ltac:(lra) ltac:(lra)) as [FG EG].
      assert (L : 5.601 <= 177.259 * (1 + width_of DT) * sqrt t <= 1133). { assert (177.259 <= 177.259 * (1 + width_of DT) <= 179) by lra. split; [apply Rle_trans with (177.259 * 0.0316); [lra|apply Rmult_le_compat; lra]|apply Rle_trans with (179 * 6.325); [apply Rmult_le_compat; lra|lra]]. }
      change (published_mean DT t) with (14021 + shift_of DT). change (published_sigma DT t) with (177.259 * (1 + width_of DT) * sqrt t / 2.3548200450309493).
      split; [exact FM|]. split; [exact FG|]. split; [exact EM|]. split; [exact EG|]. lra.
    - exists ballabio64_DD. destruct dd_shift as (FS & RS & BS). destruct dd_width as (FW & RW & BW). split; [reflexivity|].
      assert (Fe : fin_nn (dec64 24495 1) /\ rclose 1.001 (B2R (dec64 24495 1)) 2449.5) by lit. destruct Fe as [Fe Re].
      destruct (mean_abs _ _ _ _ 1.001 33 Fe Re FS RS ltac:(lra) ltac:(lra) ltac:(lra) ltac:(lra) ltac:(lra)) as [FM EM].
      assert (Fo : fin_nn (dec64 82542 3) /\ rclose 1.001 (B2R (dec64 82542 3)) 82.542) by lit. destruct Fo as [Fo Ro].
      destruct (sigma_abs _ _ _ _ 66 Fo Ro ltac:(lra) FW RW ltac:(lra) ltac:(lra)) as [FG EG].
      assert (L : 2.608 <= 82.542 * (1 + width_of DDn) * sqrt t <= 549.5). { assert (82.542 <= 82.542 * (1 + width_of DDn) <= 86.87) by lra. split; [apply Rle_trans with (82.542 * 0.0316); [lra|apply Rmult_le_compat; lra]|apply Rle_trans with (86.87 * 6.325); [apply Rmult_le_compat; lra|lra]]. }
      change (published_mean DDn t) with (2449.5 + shift_of DDn). change (published_sigma DDn t) with (82.542 * (1 + width_of DDn) * sqrt t / 2.3548200450309493).
      split; [exact FM|]. split; [exact FG|]. split; [exact EM|]. split; [exact EG|]. lra.
  Qed.
End Temperature.
