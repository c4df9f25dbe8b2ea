(** Lemmas for C107: the cross-section reactivity in binary64. *)
From Coq Require Import ZArith Bool Reals Lra Lia List.
From Flocq Require Import Core.Core IEEE754.BinarySingleNaN.
From Verif Require Import Base FloatComp FloatCompProofs FloatCompAcc FloatSource SpecFloatSource FloatSourceProofs FloatSpace FloatSpaceProofs P_FloatSpace FloatProfile FloatProfileProofs.
From Verif Require Import PiProofs SpecReactivity ReactivityProofs FloatReactivity SpecFloatReactivity FloatReactivityProofs FloatGeometryProofs.
From Verif Require Import Energy SpecEnergy EnergyProofs FloatEnergy SpecFloatEnergy FloatEnergyProofs FloatSpectrumProofs FloatGaussProofs FloatXs SpecFloatXs.
Open Scope R_scope.
Local Notation bp := (bpow radix2).
Local Notation sized := FloatReactivityProofs.near.
Ltac small_n := (eapply tiny_of; [apply Z.le_refl|vm_compute; discriminate]).

Lemma close_of_rclose r n x y : r <= INR n -> rclose r x y -> close n x y.
Proof.
  intros H (A & B & C & D). assert (W : exp (r * uu) <= wp n) by (apply exp_wp, Rmult_le_compat_r; [left; apply uu_pos|exact H]).
  split; [exact A|]. split; [exact B|]. split; [apply Rle_trans with (y * exp (r * uu))|apply Rle_trans with (x * exp (r * uu))]; auto; apply Rmult_le_compat_l; auto.
Qed.
Lemma ln_mono x y : 0 < x -> x <= y -> ln x <= ln y.
Proof. intros H [L| ->]; [left; now apply ln_increasing|lra]. Qed.
Lemma ln10 : 2 <= ln 10 <= 4.
Proof.
  pose proof exp_le_3 as E3. pose proof (exp_ineq1_le 1) as E1. split.
  - rewrite <- (ln_exp 2). apply ln_mono; [apply exp_pos|]. replace 2 with (1 + 1) by ring. rewrite exp_plus. assert (exp 1 * exp 1 <= 3 * 3) by (apply Rmult_le_compat; lra). lra.
  - rewrite <- (ln_exp 4). apply ln_mono; [lra|]. replace 4 with ((1 + 1) + (1 + 1)) by ring. rewrite !exp_plus. assert (2 * 2 <= exp 1 * exp 1) by (apply Rmult_le_compat; lra). assert (4 * 4 <= (exp 1 * exp 1) * (exp 1 * exp 1)) by (apply Rmult_le_compat; lra). lra.
Qed.

(** ** The energies *)
Definition y64 (i : nat) : f64 := if Nat.eqb i (1000 - 1) then f64_of_Z 3 else let x := f64_of_Z (Z.of_nat i) in
  fadd (if Beqb (fdiv (fsub (f64_of_Z 3) f0) (f64_of_Z (Z.of_nat (1000 - 1)))) f0 then fmul (fdiv x (f64_of_Z (Z.of_nat (1000 - 1)))) (fsub (f64_of_Z 3) f0)
        else fmul x (fdiv (fsub (f64_of_Z 3) f0) (f64_of_Z (Z.of_nat (1000 - 1))))) f0.
Lemma y64_list : linspace64 f0 (f64_of_Z 3) 1000 = map y64 (seq 0 1000).
Proof. reflexivity. Qed.
Lemma y64_ok i : (i < 1000)%nat -> is_finite (y64 i) = true /\ Rabs (B2R (y64 i) - 3 * INR i / 999) <= 9.1 * uu.
Proof.
  intro Hi. unfold y64. pose proof uu_pos as U0. destruct (Nat.eqb_spec i (1000 - 1)) as [E|E].
  - subst i. destruct (f64_of_Z_exact 3 ltac:(lia)) as [F V]. split; [exact F|]. rewrite V. change (1000 - 1)%nat with 999%nat. rewrite INR_999. replace (3 - 3 * 999 / 999) with 0 by lra. rewrite Rabs_R0. lra.
  - change (1000 - 1)%nat with 999%nat. cbv zeta. destruct (f64_of_Z_exact 3 ltac:(lia)) as [F3 V3].
    assert (D3 : is_finite (fsub (f64_of_Z 3) f0) = true /\ B2R (fsub (f64_of_Z 3) f0) = 3).
    { assert (R3 : rnd (B2R (f64_of_Z 3) - B2R f0) = 3) by (change (B2R f0) with 0; rewrite Rminus_0_r; rewrite rnd_id; [exact V3|apply B2R_fmt]).
      destruct (fsub_cases (f64_of_Z 3) f0 F3 eq_refl) as [E1 E2]; [rewrite R3, Rabs_pos_eq by lra; pose proof (bpow_lt radix2 2 1024 ltac:(lia)) as B; change (bp 2) with 4 in B; lra|]. split; [exact E2|]. rewrite <- R3. exact E1. }
    set (d3 := fsub (f64_of_Z 3) f0) in *. destruct D3 as [Fd Vd].
    assert (N3 : sized 0 d3 3 1 2) by (rewrite <- Vd; apply near_exact; [exact Fd|rewrite Vd; change (bp 1) with 2; change (bp 2) with 4; lra]).
    assert (N9 : sized 0 (f64_of_Z (Z.of_nat 999)) 999 9 10) by (apply (near_int 999); [lia|change (bp 9) with 512; change (bp 10) with 1024; lra]).
    pose proof (near_div 0 0 _ _ _ _ _ _ _ _ N3 N9 ltac:(small_n) ltac:(small_n) ltac:(lia) ltac:(lia)) as Ns. cbn [Nat.add] in Ns. set (step := fdiv d3 (f64_of_Z (Z.of_nat 999))) in *.
    assert (Z : Beqb step f0 = false). { pose proof (near_size 1 _ _ _ _ ltac:(small_n) Ns) as Sz. destruct Ns as ([Fs _] & _). apply eqb_val_f; [exact Fs|reflexivity|]. change (B2R f0) with 0. pose proof (bp_pos (1 - 10 - 1)). lra. }
    rewrite Z.
    destruct (nat_float i ltac:(lia)) as [Fi Vi]. assert (F0' : fin_nn f0) by (split; [reflexivity|cbn; lra]).
    assert (P : fin_nn (fmul (f64_of_Z (Z.of_nat i)) step) /\ close 2 (B2R (fmul (f64_of_Z (Z.of_nat i)) step)) (3 * INR i / 999)).
    { destruct i as [|i].
      - destruct Ns as (Fs & _ & _). destruct (fmul_close (f64_of_Z (Z.of_nat 0)) step) as [A B]; [split; [exact Fi|rewrite Vi; cbn; lra]|exact Fs|left; rewrite Vi; cbn [INR]; ring|].
        split; [exact A|]. rewrite Vi in B. replace (3 * INR 0 / 999) with (INR 0 * B2R step) by (cbn [INR]; lra). apply (close_weaken 1); [lia|exact B].
      - assert (I1 : 1 <= INR (S i)) by (replace 1 with (INR 1) by reflexivity; apply le_INR; lia). assert (I2 : INR (S i) <= 999) by (rewrite <- INR_999; apply le_INR; lia).
        assert (Ni : sized 0 (f64_of_Z (Z.of_nat (S i))) (INR (S i)) 0 10).
        { pose proof (near_int (Z.of_nat (S i)) 0 10 ltac:(lia)) as N. rewrite <- INR_IZR_INZ in N. apply N. change (bp 0) with 1. change (bp 10) with 1024. lra. }
        destruct (FloatReactivityProofs.near_mul 0 1 _ _ _ _ _ _ _ _ Ni Ns ltac:(small_n) ltac:(small_n) ltac:(lia) ltac:(lia)) as (A & B & _). split; [exact A|]. replace (3 * INR (S i) / 999) with (INR (S i) * (3 / 999)) by lra. exact B. }
    destruct P as [Fm Cm]. set (m := fmul _ step) in *. assert (I2 : 0 <= INR i <= 999) by (split; [apply pos_INR|rewrite <- INR_999; apply le_INR; lia]).
    assert (Bm : B2R m <= 6). { destruct Cm as (C0 & C1 & C2 & C3). assert (W : wp 2 <= 2) by (apply tiny_2; small_n). assert (3 * INR i / 999 * wp 2 <= 3 * 2) by (apply Rmult_le_compat; try lra; pose proof (wp_1 2); lra). lra. }
    destruct (fadd_close m f0 Fm F0') as [Fa Ca]. { change (B2R f0) with 0. pose proof (bpow_le radix2 3 1023 ltac:(lia)) as B. change (bp 3) with 8 in B. lra. }
    change (B2R f0) with 0 in Ca. rewrite Rplus_0_r in Ca. pose proof (close_trans 1 2 _ _ _ Ca Cm) as C. split; [apply Fa|]. apply close_abs in C; [|small_n].
    eapply Rle_trans; [exact C|]. replace (INR (1 + 2)) with 3 by (cbn; lra). assert (uu * (3 * INR i / 999) <= uu * 3) by (apply Rmult_le_compat_l; lra). lra.
Qed.

Section Xs.
  Variables (fused : bool) (vpow : nat -> f64 -> f64 -> f64) (vexp : nat -> f64 -> f64) (np_sum : list f64 -> f64) (k mu : f64).
  Hypotheses (Vp : forall i, good_pow (vpow i)) (Ve : forall i, good_exp (vexp i)) (Hsum : forall l, sums l (np_sum l)).
  Hypotheses (Fk : is_finite k = true) (Bk : bp (-53) <= B2R k <= bp (-52)) (Fmu : is_finite mu = true) (Bmu : bp (-90) <= B2R mu <= bp (-88)).
  Definition e64 (i : nat) : f64 := vpow i (f64_of_Z 10) (y64 i).
  Definition x64 (i : nat) : f64 := fmul (e64 i) k.
  Definition XX (i : nat) : R := log_node i * B2R k.
  Lemma grid_map : t_grid_kev64 vpow = map e64 (seq 0 1000).
  Proof. unfold t_grid_kev64. rewrite y64_list. exact (FloatGaussProofs.map2_map (fun i y => vpow i (f64_of_Z 10) y) y64 (seq 0 1000)). Qed.
  Lemma grid_j_map : t_grid_j64 vpow k = map x64 (seq 0 1000).
  Proof. unfold t_grid_j64. rewrite grid_map. apply map_map. Qed.
  Lemma e64_ok i : (i < 1000)%nat -> sized 46 (e64 i) (log_node i) 0 10.
  Proof.
    intro Hi. destruct (y64_ok i Hi) as [Fy Ey]. destruct (f64_of_Z_exact 10 ltac:(lia)) as [F10 V10]. destruct ln10 as [L1 L2]. pose proof uu_pos as U0. pose proof uu_1e15 as U1. pose proof (log_node_range i Hi) as Rg.
    set (y := y64 i) in *. set (Y := 3 * INR i / 999) in *.
    assert (R1 : rclose 36.4 (Rpower 10 (B2R y)) (log_node i)).
    { unfold Rpower, log_node. fold Y. apply rclose_exp. replace (B2R y * ln 10 - Y * ln 10) with ((B2R y - Y) * ln 10) by ring. rewrite Rabs_mult, (Rabs_pos_eq (ln 10)) by lra. apply Rle_trans with (9.1 * uu * 4); [apply Rmult_le_compat; auto using Rabs_pos; lra|lra]. }
    assert (C1 : close 37 (Rpower 10 (B2R y)) (log_node i)) by (apply (close_of_rclose 36.4); [rewrite INR_IZR_INZ; change (Z.of_nat 37) with 37%Z; lra|exact R1]).
    assert (W : wp 37 <= 2) by (apply tiny_2; small_n).
    assert (B : bp (-1) <= Rpower 10 (B2R y) <= bp 11).
    { change (bp (-1)) with (/ 2). change (bp 11) with 2048. destruct C1 as (C0 & C1 & C2 & C3). assert (log_node i * wp 37 <= log_node i * 2) by (apply Rmult_le_compat_l; lra). assert (Rpower 10 (B2R y) * wp 37 <= Rpower 10 (B2R y) * 2) by (apply Rmult_le_compat_l; lra). lra. }
    pose proof (Vp i (f64_of_Z 10) y F10 Fy ltac:(rewrite V10; lra)) as H. rewrite V10 in H. change (IZR 10) with 10 in H. specialize (H (two_1000 _ (-1) 11 B ltac:(lia) ltac:(lia))).
    destruct (four_close _ _ ltac:(left; apply exp_pos) H) as [A C]. split; [exact A|]. split; [exact (close_trans 9 37 _ _ _ C C1)|]. change (bp 0) with 1. change (bp 10) with 1024. lra.
  Qed.
  Lemma k_size : sized 0 k (B2R k) (-53) (-52). Proof. now apply near_exact. Qed.
  Lemma x64_ok i : (i < 1000)%nat -> sized 47 (x64 i) (XX i) (-53) (-42).
  Proof. intro Hi. exact (FloatReactivityProofs.near_mul 46 0 _ _ _ _ _ _ _ _ (e64_ok i Hi) k_size ltac:(small_n) ltac:(small_n) ltac:(lia) ltac:(lia)). Qed.
  Lemma XX_gap i : (S i < 1000)%nat -> 0.006 * XX i <= XX (S i) - XX i.
  Proof.
    intro Hi. unfold XX. replace (log_node (S i)) with (log_node i * Rpower 10 (3 / 999)). 2:{ unfold log_node. rewrite <- Rpower_plus. f_equal. rewrite S_INR. lra. }
    assert (E : 1.006 <= Rpower 10 (3 / 999)). { unfold Rpower. eapply Rle_trans; [|apply exp_ineq1_le]. destruct ln10. lra. }
    pose proof (bp_pos (-53)). pose proof (log_node_range i ltac:(lia)) as Rg. replace (log_node i * Rpower 10 (3 / 999) * B2R k - log_node i * B2R k) with ((Rpower 10 (3 / 999) - 1) * (log_node i * B2R k)) by ring.
    apply Rmult_le_compat_r; [apply Rmult_le_pos; lra|lra].
  Qed.
  Lemma XX_size i : (i < 1000)%nat -> bp (-53) <= XX i <= bp (-42).
  Proof. intro Hi. apply (x64_ok i Hi). Qed.
  Lemma x64_abs i : (i < 1000)%nat -> Rabs (B2R (x64 i) - XX i) <= 47.5 * uu * XX i.
  Proof.
    intro Hi. destruct (x64_ok i Hi) as (_ & C & B). pose proof (bp_pos (-53)). apply close_abs in C; [|small_n]. eapply Rle_trans; [exact C|]. replace (INR 47) with 47 by (rewrite INR_IZR_INZ; reflexivity).
    pose proof uu_pos. assert (0 <= uu * XX i) by (apply Rmult_le_pos; lra). lra.
  Qed.
  Lemma x64_gap i : (S i < 1000)%nat -> rclose 16221 (B2R (x64 (S i)) - B2R (x64 i)) (XX (S i) - XX i) /\ B2R (x64 i) + bp (-100) <= B2R (x64 (S i)).
  Proof.
    intro Hi. pose proof (x64_abs i ltac:(lia)) as A. pose proof (x64_abs (S i) Hi) as B. pose proof (XX_gap i Hi) as G. pose proof (XX_size i ltac:(lia)) as Z. pose proof uu_pos as U0. pose proof uu_1e15 as U1. pose proof (bp_pos (-53)) as P.
    set (a := XX i) in *. set (b := XX (S i)) in *. set (g := b - a) in *. assert (Eb : b = a + g) by (unfold g; ring).
    assert (D : Rabs (B2R (x64 (S i)) - B2R (x64 i) - g) <= 15902 * uu * g).
    { replace (B2R (x64 (S i)) - B2R (x64 i) - g) with ((B2R (x64 (S i)) - b) - (B2R (x64 i) - a)) by (unfold g; ring). eapply Rle_trans; [apply Rabs_triang|]. rewrite Rabs_Ropp.
      assert (uu * a <= uu * (g / 0.006)) by (apply Rmult_le_compat_l; lra). assert (Ub : uu * b = uu * a + uu * g) by (rewrite Eb at 1; ring). assert (0 <= uu * g) by (apply Rmult_le_pos; lra). lra. }
    split.
    - eapply rclose_weaken; [|apply (rclose_of_abs 15902); [lra|lra|lra|exact D]]. lra.
    - apply Rabs_le_inv in D. assert (uu * g <= / 1000000 * g) by (apply Rmult_le_compat_r; lra). assert (bp (-100) <= 0.001 * a). { apply Rle_trans with (bp (-10) * bp (-53)); [rewrite bp_mul; apply bpow_le; lia|]. apply Rmult_le_compat; try lra. left; apply bp_pos. change (bp (-10)) with (/ 1024). lra. } lra.
  Qed.

  (** ** The Maxwell factor *)
  Section Row.
  Variables (T : f64) (j : nat) (s : nat -> f64).
  Hypotheses (FT : is_finite T = true) (BT : 4 <= B2R T <= 1000).
  Hypothesis Hs : forall i, (i < 1000)%nat -> is_finite (s i) = true /\ bp (-150) <= B2R (s i) <= bp (-90).
  Let kT : R := B2R T * B2R k.
  Let tj : f64 := fmul T k.
  Lemma tj_ok : sized 1 tj kT (-51) (-42).
  Proof.
    assert (NT : sized 0 T (B2R T) 2 10) by (apply near_exact; [exact FT|change (bp 2) with 4; change (bp 10) with 1024; lra]).
    exact (FloatReactivityProofs.near_mul 0 0 _ _ _ _ _ _ _ _ NT k_size ltac:(small_n) ltac:(small_n) ltac:(lia) ltac:(lia)).
  Qed.
  Lemma f_3_2_val : is_finite f_3_2 = true /\ B2R f_3_2 = 1.5.
  Proof. destruct (normalize_exact 3 (-1) false) as [F V]; [vm_compute; reflexivity|lia|]. split; [exact F|]. fold f_3_2 in V. rewrite V. change (bp (-1)) with (/ 2). lra. Qed.
  Lemma bp_sqrt e : sqrt (bp (2 * e)) = bp e.
  Proof. replace (2 * e)%Z with (e + e)%Z by lia. rewrite bpow_plus. apply sqrt_square. left; apply bp_pos. Qed.
  Lemma three_halves a b x : bp (2 * a) <= x <= bp (2 * b) -> bp (3 * a) <= Rpower x 1.5 <= bp (3 * b).
  Proof.
    intro H. pose proof (bp_pos (2 * a)). rewrite Rpower_15 by lra. pose proof (bp_pos a). assert (S1 : bp a <= sqrt x) by (rewrite <- bp_sqrt; apply sqrt_le_1_alt; lra). assert (S2 : sqrt x <= bp b) by (rewrite <- (bp_sqrt b); apply sqrt_le_1_alt; lra).
    replace (3 * a)%Z with (2 * a + a)%Z by lia. replace (3 * b)%Z with (2 * b + b)%Z by lia. rewrite !bpow_plus. split; apply Rmult_le_compat; lra.
  Qed.
  Lemma pow_ok : sized 11 (vpow j tj f_3_2) (Rpower kT 1.5) (-78) (-63).
  Proof.
    pose proof tj_ok as N. pose proof (near_size 1 _ _ _ _ ltac:(small_n) N) as Sz. destruct N as (F & C & B). destruct f_3_2_val as [F3 V3]. pose proof (bp_pos (-51 - 1)) as P. pose proof (bp_pos (-51)) as P1.
    assert (Bt : bp (-78) <= Rpower (B2R tj) 1.5 <= bp (-60)) by (apply (three_halves (-26) (-20)); split; [apply Sz|eapply Rle_trans; [apply Sz|]; apply bpow_le; lia]).
    pose proof (Vp j tj f_3_2 (proj1 F) F3 ltac:(lra)) as H. rewrite V3 in H. specialize (H (two_1000 _ (-78) (-60) Bt ltac:(lia) ltac:(lia))).
    destruct (four_close _ _ ltac:(left; apply exp_pos) H) as [A C9]. split; [exact A|]. split.
    - apply (close_trans 9 2 _ (Rpower (B2R tj) 1.5)); [exact C9|]. destruct C as (C0 & C1 & C2 & C3). pose proof (wp_1 1) as W1.
      assert (W : Rpower (wp 1) 1.5 <= wp 2). { replace (wp 2) with (Rpower (wp 1) 2) by (rewrite Rpower_2 by lra; unfold wp; cbn [pow]; ring). apply Rle_Rpower; lra. }
      assert (K : forall x y, 0 < x -> 0 < y -> x <= y * wp 1 -> Rpower x 1.5 <= Rpower y 1.5 * wp 2).
      { intros x y Hx Hy L. apply Rle_trans with (Rpower (y * wp 1) 1.5); [apply Rpower_mono; lra|]. rewrite <- Rpower_mult_distr by lra. apply Rmult_le_compat_l; [left; apply exp_pos|exact W]. }
      split; [left; apply exp_pos|]. split; [left; apply exp_pos|]. split; apply K; lra.
    - pose proof (three_halves (-26) (-21) kT) as Q. apply Q. split; [eapply Rle_trans; [|apply B]; apply bpow_le; lia|apply B].
  Qed.
  Let factor : f64 := fdiv (fdiv (f64_of_Z 4) (fsqrt (fmul (fmul f2 f_pi) mu))) (vpow j tj f_3_2).
  Lemma factor_ok' : sized 16 factor (4 / sqrt (2 * PI * B2R mu) / Rpower kT 1.5) 107 124.
  Proof.
    assert (N2 : sized 1 (fmul f2 f_pi) (2 * PI) 2 3).
    { destruct two_pi as [Fp Vp']. pose proof PI_16 as [P1 P2]. pose proof pi_close as C. rewrite <- Vp' in C. split; [split; [exact Fp|apply C]|]. split; [exact C|]. change (bp 2) with 4. change (bp 3) with 8. lra. }
    assert (Nm : sized 0 mu (B2R mu) (-90) (-88)) by now apply near_exact.
    pose proof (FloatReactivityProofs.near_mul 1 0 _ _ _ _ _ _ _ _ N2 Nm ltac:(small_n) ltac:(small_n) ltac:(lia) ltac:(lia)) as N3. cbn [Nat.add] in N3.
    assert (N4 : sized (2 * 2) (fmul (fmul f2 f_pi) mu) (2 * PI * B2R mu) (2 * (-44)) (2 * (-42))) by (eapply near_weaken; [| | |exact N3]; lia).
    pose proof (near_sqrt 2 _ _ (-44) (-42) ltac:(small_n) N4 ltac:(lia) ltac:(lia)) as N5. cbn [Nat.add] in N5.
    assert (Nf : sized 0 (f64_of_Z 4) 4 2 2) by (apply near_int; [lia|change (bp 2) with 4; lra]).
    pose proof (near_div 0 3 _ _ _ _ _ _ _ _ Nf N5 ltac:(small_n) ltac:(small_n) ltac:(lia) ltac:(lia)) as N6. cbn [Nat.add] in N6.
    pose proof (near_div 4 11 _ _ _ _ _ _ _ _ N6 pow_ok ltac:(small_n) ltac:(small_n) ltac:(lia) ltac:(lia)) as N7. eapply near_weaken; [| | |exact N7]; lia.
  Qed.
  Definition nx : nat := Z.to_nat 12400.
  Lemma nx_INR : INR nx = 12400.
  Proof. unfold nx. rewrite INR_IZR_INZ, Z2Nat.id by lia. reflexivity. Qed.
  Lemma nx_tiny c : (c <= 100)%nat -> tiny (nx + c).
  Proof. intro H. unfold tiny. rewrite plus_INR, nx_INR. apply le_INR in H. replace (INR 100) with 100 in H by (rewrite INR_IZR_INZ; reflexivity). lra. Qed.
  Lemma nx_tiny0 : tiny nx.
  Proof. unfold tiny. rewrite nx_INR. lra. Qed.
  Global Opaque nx.
  Lemma opp_div (x y : f64) : fin_nn x -> fin_nn y -> 0 < B2R y -> normal (B2R x / B2R y) -> is_finite (fdiv (Bopp x) y) = true /\ B2R (fdiv (Bopp x) y) = - B2R (fdiv x y).
  Proof.
    intros [Fx Hx] [Fy Hy] P N. assert (N0 : B2R y <> 0) by lra.
    pose proof (Bdiv_correct 53 1024 Hprec64 Hmax64 mode_NE x y N0) as H. pose proof (Bdiv_correct 53 1024 Hprec64 Hmax64 mode_NE (Bopp x) y N0) as H'. rewrite fexp64 in H, H'. change (round_mode mode_NE) with ZnearestE in H, H'.
    pose proof (rnd_top _ (normal_top _ N)) as Tp. rewrite Rlt_bool_true in H by exact Tp. rewrite B2R_Bopp in H'. replace (- B2R x / B2R y) with (- (B2R x / B2R y)) in H' by (unfold Rdiv; ring). rewrite round_NE_opp, Rabs_Ropp in H'. rewrite Rlt_bool_true in H' by exact Tp.
    destruct H as (E & F & _), H' as (E' & F' & _). split; [unfold fdiv; rewrite F', is_finite_Bopp; exact Fx|]. unfold fdiv. now rewrite E, E'.
  Qed.
  Lemma exp_arg i : (i < 1000)%nat -> fin_nn (vexp (j * 1000 + i) (fdiv (Bopp (x64 i)) tj)) /\ sized (nx + 9) (vexp (j * 1000 + i) (fdiv (Bopp (x64 i)) tj)) (exp (- (XX i / kT))) (-500) 0.
  Proof.
    intro Hi. pose proof (x64_ok i Hi) as Nx. pose proof tj_ok as Nt. pose proof (near_div 47 1 _ _ _ _ _ _ _ _ Nx Nt ltac:(small_n) ltac:(small_n) ltac:(lia) ltac:(lia)) as Nq. cbn [Nat.add] in Nq.
    pose proof (near_size 47 _ _ _ _ ltac:(small_n) Nx) as Sx. pose proof (near_size 1 _ _ _ _ ltac:(small_n) Nt) as St. destruct Nx as (Fx & _ & Bx), Nt as (Ft & _ & Bt). destruct Nq as (Fq & Cq & _).
    pose proof (bp_pos (-51 - 1)). pose proof (bp_pos (-53)). pose proof uu_pos as U0. pose proof uu_1e15 as U1. pose proof (log_node_range i Hi) as Rg.
    destruct (opp_div (x64 i) tj Fx Ft ltac:(lra)) as [Fo Vo]. { apply (normal_of _ (-53 - 1 - (-42 + 1)) (-42 + 1 - (-51 - 1))); [now apply div_size|lia|lia]. }
    assert (Pk : 0 < B2R k) by lra. set (q := XX i / kT) in *. assert (Q0 : 0 < q <= 250).
    { assert (Eq : q = log_node i / B2R T) by (unfold q, XX, kT; field; lra). rewrite Eq. split; [apply Rdiv_lt_0_compat; lra|]. apply (Rmult_le_reg_r (B2R T)); [lra|]. replace (log_node i / B2R T * B2R T) with (log_node i) by (field; lra). lra. }
    apply close_abs in Cq; [|small_n]. replace (INR 49) with 49 in Cq by (rewrite INR_IZR_INZ; reflexivity).
    set (f := fdiv (Bopp (x64 i)) tj) in *. assert (D : Rabs (B2R f - - q) <= 12400 * uu).
    { rewrite Vo. replace (- B2R (fdiv (x64 i) tj) - - q) with (- (B2R (fdiv (x64 i) tj) - q)) by ring. rewrite Rabs_Ropp. eapply Rle_trans; [exact Cq|]. assert (uu * q <= uu * 250) by (apply Rmult_le_compat_l; lra). lra. }
    assert (C1 : close nx (exp (B2R f)) (exp (- q))) by (apply (close_of_rclose 12400); [rewrite nx_INR; lra|now apply rclose_exp]).
    assert (Bq : bp (-500) <= exp (- q) <= bp 0).
    { split; [|change (bp 0) with 1; rewrite <- exp_0; apply exp_le; lra]. apply Rle_trans with (exp (- INR 250)); [exact (exp_low 250)|]. apply exp_le. replace (INR 250) with 250 by (rewrite INR_IZR_INZ; reflexivity). lra. }
    assert (Bf : bp (-501) <= exp (B2R f) <= bp 1).
    { pose proof (tiny_2 nx nx_tiny0) as W. pose proof (wp_1 nx). destruct C1 as (C0 & C1 & C2 & C3). replace (bp (-500)) with (bp (-501) * 2) in Bq by (rewrite <- bp_1, bp_mul; reflexivity). change (bp 0) with 1 in Bq. change (bp 1) with 2.
      assert (exp (- q) * wp nx <= exp (- q) * 2) by (apply Rmult_le_compat_l; lra). assert (exp (B2R f) * wp nx <= exp (B2R f) * 2) by (apply Rmult_le_compat_l; lra). lra. }
    pose proof (Ve (j * 1000 + i) f Fo (two_1000 _ (-501) 1 Bf ltac:(lia) ltac:(lia))) as H4.
    destruct (four_close _ _ ltac:(left; apply exp_pos) H4) as [A C9]. split; [exact A|]. split; [exact A|]. split; [|exact Bq]. rewrite Nat.add_comm. exact (close_trans 9 nx _ _ _ C9 C1).
  Qed.
  Definition q64 (i : nat) : f64 := fmul (fmul (fmul factor (s i)) (x64 i)) (vexp (j * 1000 + i) (fdiv (Bopp (x64 i)) tj)).
  Lemma q64_ok i : (i < 1000)%nat -> dens_ok (q64 i) /\ 0 < B2R (q64 i) /\ rclose 12488 (B2R (q64 i)) (maxwell_integrand (B2R mu) kT (B2R (s i)) (XX i)).
  Proof.
    intro Hi. destruct (Hs i Hi) as [Fs Bs]. assert (N0 : sized 0 (s i) (B2R (s i)) (-150) (-90)) by now apply near_exact.
    pose proof (FloatReactivityProofs.near_mul 16 0 _ _ _ _ _ _ _ _ factor_ok' N0 ltac:(small_n) ltac:(small_n) ltac:(lia) ltac:(lia)) as N1. cbn [Nat.add] in N1.
    pose proof (FloatReactivityProofs.near_mul 17 47 _ _ _ _ _ _ _ _ N1 (x64_ok i Hi) ltac:(small_n) ltac:(small_n) ltac:(lia) ltac:(lia)) as N2. cbn [Nat.add] in N2.
    destruct (exp_arg i Hi) as [_ Ne]. pose proof (FloatReactivityProofs.near_mul 65 (nx + 9) _ _ _ _ _ _ _ _ N2 Ne ltac:(small_n) (nx_tiny 9 ltac:(lia)) ltac:(lia) ltac:(lia)) as N3.
    apply (near_weaken _ (nx + 75) _ _ _ _ (-597) (-8)) in N3; [|lia|lia|lia]. fold (q64 i) in N3.
    pose proof (near_size _ _ _ _ _ (nx_tiny 75 ltac:(lia)) N3) as Sz. destruct N3 as (F & C & B). pose proof (bp_pos (-597 - 1)) as P.
    split; [split; [apply F|right]|split; [lra|]].
    - pose proof (bpow_le radix2 (-600) (-597 - 1) ltac:(lia)). pose proof (bpow_le radix2 (-8 + 1) 100 ltac:(lia)). lra.
    - pose proof tj_ok as (_ & _ & Bt). pose proof (bp_pos (-51)). pose proof (bp_pos (-90)).
      replace (maxwell_integrand (B2R mu) kT (B2R (s i)) (XX i)) with (4 / sqrt (2 * PI * B2R mu) / Rpower kT 1.5 * B2R (s i) * XX i * exp (- (XX i / kT))) by (rewrite factor_eq by lra; unfold maxwell_integrand; ring).
      apply rclose_of_close in C. eapply rclose_weaken; [|exact C]. rewrite plus_INR, nx_INR. replace (INR 75) with 75 by (rewrite INR_IZR_INZ; reflexivity). lra.
  Qed.
  Lemma integral_rule (x g : nat -> R) n : forall a, integral (map (fun i => (x i, g i)) (seq a n)) = trapezoid_rule n (fun i => x (a + i)%nat) (fun i => g (a + i)%nat).
  Proof.
    unfold trapezoid_rule. induction n as [|n IH]; intro a; [reflexivity|]. destruct n as [|n]; [reflexivity|].
    change (seq a (S (S n))) with (a :: S a :: seq (S (S a)) n). specialize (IH (S a)). change (seq (S a) (S n)) with (S a :: seq (S (S a)) n) in IH. cbn [map] in IH |- *.
    assert (U : forall p q l, integral (p :: q :: l) = (fst q - fst p) * (snd p + snd q) / 2 + integral (q :: l)) by (intros [] [] l; reflexivity). rewrite U, IH. cbn [fst snd].
    replace (S (S n) - 1)%nat with (S (S n - 1)) by lia. rewrite sum_upto_S. rewrite !Nat.add_0_r. replace (a + 1)%nat with (S a) by lia. f_equal.
    apply sum_upto_ext. intros i _. replace (a + S i)%nat with (S a + i)%nat by lia. replace (a + S (S i))%nat with (S a + S i)%nat by lia. reflexivity.
  Qed.
  Lemma row_result : let v := xs_row64 vpow vexp np_sum k mu (map s (seq 0 1000)) j T in
    is_finite v = true /\ 0 < B2R v /\ rclose 29714 (B2R v) (maxwell_average (B2R k) (B2R mu) (B2R T) (fun i => B2R (s i))).
  Proof.
    intro v. set (el := map x64 (seq 0 1000)). set (ql := map q64 (seq 0 1000)).
    assert (Ev : v = np_sum (panels64 el ql)).
    { unfold v, xs_row64. rewrite grid_j_map, combine_map_map. fold tj. fold factor. rewrite map2_map. reflexivity. }
    assert (Le : length el = 1000%nat) by (unfold el; now rewrite map_length, seq_length). assert (Lq : length ql = 1000%nat) by (unfold ql; now rewrite map_length, seq_length).
    assert (Re : Forall row_ok el).
    { apply Forall_map, Forall_forall; intros i Hi; apply in_seq in Hi. pose proof (near_size 47 _ _ _ _ ltac:(small_n) (x64_ok i ltac:(lia))) as Sz. destruct (x64_ok i ltac:(lia)) as (F & _ & _). split; [apply F|]. pose proof (bp_pos (-53 - 1)). rewrite Rabs_pos_eq by lra. eapply Rle_trans; [apply Sz|]. apply bpow_le. lia. }
    assert (Dq : Forall dens_ok ql) by (apply Forall_map, Forall_forall; intros i Hi; apply in_seq in Hi; apply q64_ok; lia).
    assert (Sp : spaced (bp (-100)) el) by (apply spaced_map; intros i _ Hi; apply x64_gap; lia).
    assert (Hh : B2R (hd f0 ql) <> 0) by (change (hd f0 ql) with (q64 0%nat); pose proof (proj1 (proj2 (q64_ok 0%nat ltac:(lia)))); lra).
    assert (N1 : INR (length el) <= bp 40). { rewrite Le, INR_IZR_INZ. change (bp 40) with 1099511627776. change (Z.of_nat 1000) with 1000%Z. lra. }
    destruct (total_ok np_sum el ql Hsum ltac:(lia) ltac:(lia) N1 Re Sp Dq Hh) as (Tn & Tc & TI). rewrite <- Ev in Tn, Tc. split; [apply Tn|]. rewrite Le in Tc. apply rclose_of_close in Tc.
    split; [apply (rclose_pos _ _ _ Tc); pose proof (bp_pos (-701)); lra|].
    assert (EI : integral (combine (map B2R el) (map B2R ql)) = integral (map (fun i => (B2R (x64 i), B2R (q64 i))) (seq 0 1000))) by (unfold el, ql; rewrite !map_map; now rewrite combine_map_map).
    rewrite EI in Tc. eapply rclose_weaken; [|eapply rclose_trans; [exact Tc|]].
    2:{ unfold maxwell_average. pose proof (integral_rule XX (fun i => maxwell_integrand (B2R mu) kT (B2R (s i)) (XX i)) 1000 0) as Q. cbn [Nat.add] in Q. unfold XX, kT in Q. rewrite <- Q.
        apply (integral_rclose 16221 12488 (fun i => B2R (x64 i)) XX (fun i => B2R (q64 i)) (fun i => maxwell_integrand (B2R mu) kT (B2R (s i)) (XX i))); [intros i _ Hi; apply x64_gap; lia|intros i Hi; apply q64_ok; lia|lra]. }
    replace (INR (1000 + 3)) with 1003 by (rewrite INR_IZR_INZ; reflexivity). lra.
  Qed.
  End Row.
End Xs.
