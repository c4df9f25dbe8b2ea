(** Lemmas for C106: the tabulated T-T spectrum in binary64. *)
From Coq Require Import ZArith NArith Bool Reals Lra Lia List Sorted.
From Flocq Require Import Core.Core IEEE754.BinarySingleNaN.
From Verif Require Import Base Reactions SpectraData FloatComp FloatCompProofs FloatCompAcc FloatSource SpecFloatSource FloatSourceProofs FloatSpace FloatSpaceProofs FloatProfile FloatProfileProofs.
From Verif Require Import FloatReactivity SpecFloatReactivity FloatReactivityProofs FloatGeometryProofs.
From Verif Require Import Energy SpecEnergy EnergyProofs TTRange FloatEnergy SpecFloatEnergy FloatEnergyProofs FloatSpectrumProofs SpecFloatMcnp FloatTT SpecFloatTT.
Open Scope R_scope.
Local Notation bp := (bpow radix2).

(** ** Finding an interval *)
Lemma interval_ok (g : nat -> f64) (x : f64) n : forall a, (2 <= n)%nat -> (forall i, (a <= i < a + n)%nat -> is_finite (g i) = true) -> is_finite x = true ->
  B2R (g a) <= B2R x <= B2R (g (a + n - 1)%nat) ->
  let j := interval_from64 a (map g (seq a n)) x in
  (a <= j)%nat /\ (S j < a + n)%nat /\ B2R (g j) <= B2R x <= B2R (g (S j)) /\ (B2R x < B2R (g (S j)) \/ S j = (a + n - 1)%nat).
Proof.
  induction n as [|n IH]; intros a Hn Hg Fx Hx; [lia|]. destruct n as [|n]; [lia|]. destruct n as [|n].
  - cbn [seq map interval_from64]. replace (a + 2 - 1)%nat with (S a) in Hx by lia. cbv zeta. repeat (split; [lia || exact Hx|]). right. lia.
  - specialize (IH (S a)). change (seq a (S (S (S n)))) with (a :: S a :: S (S a) :: seq (S (S (S a))) n). change (seq (S a) (S (S n))) with (S a :: S (S a) :: seq (S (S (S a))) n) in IH.
    cbn [map] in IH |- *. cbn [interval_from64] in IH |- *. cbv zeta in IH |- *.
    destruct (Bltb x (g (S a))) eqn:E.
    + apply ltb_val in E; [|exact Fx|apply Hg; lia]. split; [lia|]. split; [lia|]. split; [split; [apply Hx|lra]|now left].
    + apply ltb_val_f in E; [|exact Fx|apply Hg; lia].
      destruct IH as (A & B & C & D); [lia|intros; apply Hg; lia|exact Fx|split; [exact E|]; replace (S a + S (S n) - 1)%nat with (a + S (S (S n)) - 1)%nat by lia; apply Hx|].
      split; [lia|]. split; [lia|]. split; [exact C|]. destruct D as [D|D]; [now left|right; lia].
Qed.
Lemma map_as_seq {A B} (f : A -> B) (l : list A) d : map f l = map (fun i => f (nth i l d)) (seq 0 (length l)).
Proof.
  apply nth_ext with (d := f d) (d' := f d); [now rewrite !map_length, seq_length|]. intros i Hi. rewrite map_length in Hi. rewrite map_nth.
  rewrite (nth_indep _ _ ((fun i => f (nth i l d)) 0%nat)) by (now rewrite map_length, seq_length). rewrite (map_nth (fun i => f (nth i l d))). now rewrite seq_nth.
Qed.
Lemma nth_map_seq {A} (f : nat -> A) n i d : (i < n)%nat -> nth i (map f (seq 0 n)) d = f i.
Proof. intro H. rewrite (nth_indep _ _ (f 0%nat)) by (now rewrite map_length, seq_length). rewrite (map_nth f). now rewrite seq_nth. Qed.

(** ** Weights *)
Definition weight (w : f64) : Prop := fin_nn w /\ (B2R w = 0 \/ bp (-53) <= B2R w) /\ B2R w <= 1.
Definition entry (v : f64) : Prop := is_finite v = true /\ bp (-360) <= B2R v <= bp 20.
Lemma entry_nn v : entry v -> fin_nn v.
Proof. intros [F H]. pose proof (bp_pos (-360)). split; [exact F|lra]. Qed.
Lemma wp1_2 : wp 1 <= 2.
Proof. rewrite <- bp_1. apply wp_2. cbn. pose proof uu_small. lra. Qed.
Lemma bp_step a : bp (a + 1) = 2 * bp a.
Proof. rewrite <- bp_1, bp_mul. f_equal; lia. Qed.
Lemma term_ok (v w z : f64) : entry v -> weight w -> weight z -> let t := fmul (fmul v w) z in let X := B2R v * B2R w * B2R z in
  fin_nn t /\ close 2 (B2R t) X /\ X <= bp 20.
Proof.
  intros Ev (Nw & Hw & Lw) (Nz & Hz & Lz) t X. pose proof (entry_nn v Ev) as Nv. destruct Ev as [_ Bv]. pose proof (bp_pos (-360)). pose proof (bp_pos (-53)). pose proof (bp_pos (-413)). pose proof (bp_pos (-414)). pose proof (bp_pos 20).
  assert (Bvw : B2R v * B2R w = 0 \/ bp (-413) <= B2R v * B2R w <= bp 20).
  { destruct Hw as [-> |Hw]; [left; ring|right]. split; [replace (bp (-413)) with (bp (-360) * bp (-53)) by (rewrite bp_mul; reflexivity); apply Rmult_le_compat; lra|].
    replace (bp 20) with (bp 20 * 1) by ring. apply Rmult_le_compat; lra. }
  assert (Nvw : normal (B2R v * B2R w)) by (destruct Bvw as [Z|B]; [now left|apply (normal_of _ (-413) 20); [exact B|lia|lia]]).
  destruct (fmul_close v w Nv Nw Nvw) as [Fm Cm]. set (m := fmul v w) in *. pose proof wp1_2 as W. pose proof (bp_step (-414)) as E1. change (-414 + 1)%Z with (-413)%Z in E1. pose proof (bp_step 20) as E2. change (20 + 1)%Z with 21%Z in E2.
  assert (Bm : B2R m = 0 \/ bp (-414) <= B2R m <= bp 21).
  { destruct Bvw as [Z|B]; [left; rewrite Z in Cm; now apply close_0 in Cm|right]. destruct Cm as (C0 & C1 & C2 & C3). split.
    - assert (B2R m * wp 1 <= B2R m * 2) by (apply Rmult_le_compat_l; lra). lra.
    - assert (B2R v * B2R w * wp 1 <= B2R v * B2R w * 2) by (apply Rmult_le_compat_l; lra). lra. }
  assert (Nmz : normal (B2R m * B2R z)).
  { destruct Bm as [Z|B]; [left; rewrite Z; ring|]. destruct Hz as [Z|Hz]; [left; rewrite Z; ring|]. apply (normal_of _ (-467) 21); [|lia|lia]. split.
    - replace (bp (-467)) with (bp (-414) * bp (-53)) by (rewrite bp_mul; reflexivity). apply Rmult_le_compat; lra.
    - replace (bp 21) with (bp 21 * 1) by ring. destruct Nz. apply Rmult_le_compat; lra. }
  destruct (fmul_close m z Fm Nz Nmz) as [Ft Ct]. split; [exact Ft|]. split.
  - eapply (close_trans 1 1); [exact Ct|]. unfold X. apply close_mult_r; [apply Nz|exact Cm].
  - unfold X. destruct Nz. replace (bp 20) with (bp 20 * 1) by ring. apply Rmult_le_compat; lra.
Qed.
Lemma acc_ok n (s t : f64) (S0 X : R) : (2 <= n <= 10)%nat -> fin_nn s -> fin_nn t -> close n (B2R s) S0 -> close 2 (B2R t) X -> S0 <= bp 25 -> X <= bp 20 ->
  fin_nn (fadd s t) /\ close (n + 1) (B2R (fadd s t)) (S0 + X).
Proof.
  intros Hn Fs Ft Cs Ct Bs Bx. assert (C : close n (B2R s + B2R t) (S0 + X)) by (apply close_plus; [exact Cs|apply (close_weaken 2); [lia|exact Ct]]).
  assert (W : wp n <= 2). { rewrite <- bp_1. apply wp_2. assert (I10 : INR n <= INR 10) by (apply le_INR; lia). rewrite (INR_IZR_INZ 10) in I10. change (Z.of_nat 10) with 10%Z in I10. pose proof uu_small. pose proof (pos_INR n). pose proof uu_1e15. pose proof uu_pos. nra. }
  assert (L : B2R s + B2R t <= bp 1023).
  { destruct C as (C0 & C1 & C2 & C3). assert ((S0 + X) * wp n <= (S0 + X) * 2) by (apply Rmult_le_compat_l; lra). pose proof (bpow_le radix2 20 25 ltac:(lia)). pose proof (bp_step 25) as E. change (25 + 1)%Z with 26%Z in E. pose proof (bp_step 26) as E'. change (26 + 1)%Z with 27%Z in E'. pose proof (bpow_le radix2 27 1023 ltac:(lia)). lra. }
  destruct (fadd_close s t Fs Ft L) as [F A]. split; [exact F|]. replace (n + 1)%nat with (1 + n)%nat by lia. eapply close_trans; [exact A|exact C].
Qed.
Lemma one_minus (y : f64) : fin_nn y -> B2R y <= 1 -> is_finite (fsub f1 y) = true /\ B2R (fsub f1 y) = rnd (1 - B2R y) /\ weight (fsub f1 y) /\ Rabs (B2R (fsub f1 y) - (1 - B2R y)) <= uu.
Proof.
  intros [F P] L. destruct f1_value as [F1 V1]. assert (T : Rabs (rnd (B2R f1 - B2R y)) < bp 1024).
  { rewrite V1. apply rnd_top. split; [lra|]. pose proof (bpow_le radix2 0 1023 ltac:(lia)) as B. change (bp 0) with 1 in B. lra. }
  destruct (fsub_cases f1 y F1 F T) as [E Fs]. unfold f64 in *. rewrite V1 in E. split; [exact Fs|]. split; [exact E|].
  assert (R01 : 0 <= rnd (1 - B2R y) <= 1). { pose proof (rnd_mono 0 (1 - B2R y) ltac:(lra)) as M0. rewrite rnd_0 in M0. pose proof (rnd_mono (1 - B2R y) 1 ltac:(lra)) as M1. rewrite (rnd_id 1 fmt_1) in M1. split; assumption. }
  assert (Ab : Rabs (B2R (fsub f1 y) - (1 - B2R y)) <= uu).
  { rewrite E. destruct (rnd_err 1 1 (1 - B2R y)) as [A _]; [unfold scale; pose proof (bpow_le radix2 (-200) 0 ltac:(lia)) as B; pose proof (bpow_le radix2 0 200 ltac:(lia)) as B'; change (bp 0) with 1 in *; lra|pose proof (bpow_le radix2 0 30 ltac:(lia)) as B; change (bp 0) with 1 in B; lra|rewrite Rabs_pos_eq; lra|lra]. }
  split; [|exact Ab]. split; [split; [exact Fs|rewrite E; apply R01]|]. split; [|rewrite E; apply R01].
  destruct (Req_dec (B2R y) 1) as [Z|Z].
  - left. rewrite E, Z, Rminus_eq_0. apply rnd_0.
  - right. rewrite E. assert (Fmb : fmt (bp (-53))) by (apply generic_format_bpow; unfold FLT_exp; lia). rewrite <- (rnd_id _ Fmb). apply rnd_mono.
    pose proof (pred_ge_gt radix2 (FLT_exp (-1074) 53) (B2R y) (bp 0) (B2R_fmt y) fmt_1 ltac:(change (bp 0) with 1; lra)) as Lp.
    rewrite pred_bpow in Lp. change (FLT_exp (-1074) 53 0) with (-53)%Z in Lp. change (bp 0) with 1 in Lp. lra.
Qed.
Lemma bilinear_ok (v : nat -> nat -> f64) i j (y0 y1 : f64) : entry (v i j) -> entry (v i (S j)) -> entry (v (S i) j) -> entry (v (S i) (S j)) -> weight y0 -> weight y1 ->
  fin_nn (bilinear64 v i j y0 y1) /\
  close 6 (B2R (bilinear64 v i j y0 y1))
    (B2R (v i j) * B2R (fsub f1 y0) * B2R (fsub f1 y1) + B2R (v i (S j)) * B2R (fsub f1 y0) * B2R y1 + B2R (v (S i) j) * B2R y0 * B2R (fsub f1 y1) + B2R (v (S i) (S j)) * B2R y0 * B2R y1).
Proof.
  intros E1 E2 E3 E4 W0 W1. destruct (one_minus y0 (proj1 W0) (proj2 (proj2 W0))) as (_ & _ & W0' & _). destruct (one_minus y1 (proj1 W1) (proj2 (proj2 W1))) as (_ & _ & W1' & _).
  set (z0 := fsub f1 y0) in *. set (z1 := fsub f1 y1) in *. unfold bilinear64. fold z0 z1.
  destruct (term_ok _ _ _ E1 W0' W1') as (F1 & C1 & B1). destruct (term_ok _ _ _ E2 W0' W1) as (F2 & C2 & B2). destruct (term_ok _ _ _ E3 W0 W1') as (F3 & C3 & B3). destruct (term_ok _ _ _ E4 W0 W1) as (F4 & C4 & B4).
  set (t1 := fmul (fmul (v i j) z0) z1) in *. set (t2 := fmul (fmul (v i (S j)) z0) y1) in *. set (t3 := fmul (fmul (v (S i) j) y0) z1) in *. set (t4 := fmul (fmul (v (S i) (S j)) y0) y1) in *.
  set (X1 := B2R (v i j) * B2R z0 * B2R z1) in *. set (X2 := B2R (v i (S j)) * B2R z0 * B2R y1) in *. set (X3 := B2R (v (S i) j) * B2R y0 * B2R z1) in *. set (X4 := B2R (v (S i) (S j)) * B2R y0 * B2R y1) in *.
  pose proof (bp_pos 20). assert (Q : bp 25 = 32 * bp 20) by (change 32 with (bp 5); rewrite bp_mul; reflexivity).
  destruct (fadd_0_l t1 F1) as [G1 V1]. rewrite <- V1 in C1.
  apply (close_weaken 2 3) in C1; [|lia]. assert (K : forall a, 0 <= a -> a <= bp 20 -> True) by trivial.
  cbv zeta.
  destruct (acc_ok 3 _ _ _ _ ltac:(lia) G1 F2 C1 C2 ltac:(lra) B2) as [G2 D2]. destruct (acc_ok 4 _ _ _ _ ltac:(lia) G2 F3 D2 C3 ltac:(lra) B3) as [G3 D3]. destruct (acc_ok 5 _ _ _ _ ltac:(lia) G3 F4 D3 C4 ltac:(lra) B4) as [G4 D4].
  split; [exact G4|exact D4].
Qed.

(** ** The temperatures *)
Definition f20 : f64 := f64_of_Z 20.
Lemma f20_value : is_finite f20 = true /\ B2R f20 = 20.
Proof. exact (f64_of_Z_exact 20 ltac:(lia)). Qed.
Definition delta64 : f64 := fsub f20 f1.
Definition step64 : f64 := fdiv delta64 (f64_of_Z (Z.of_nat (40 - 1))).
Definition t64 (i : nat) : f64 := if Nat.eqb i (40 - 1) then f20 else let x := f64_of_Z (Z.of_nat i) in fadd (if Beqb step64 f0 then fmul (fdiv x (f64_of_Z (Z.of_nat (40 - 1)))) delta64 else fmul x step64) f1.
Lemma temps_map : linspace64 f1 f20 40 = map t64 (seq 0 40).
Proof. reflexivity. Qed.
Lemma scale_1 : scale 1.
Proof. unfold scale. pose proof (bpow_le radix2 (-200) 0 ltac:(lia)) as B. pose proof (bpow_le radix2 0 200 ltac:(lia)) as B'. change (bp 0) with 1 in *. lra. Qed.
Lemma k_upto k : 1 <= k <= 1000 -> 1 <= k <= bp 30.
Proof. change (bp 30) with 1073741824. lra. Qed.
Lemma rnd_int n : (Z.abs n < 2 ^ 53)%Z -> rnd (IZR n) = IZR n.
Proof. intro H. destruct (f64_of_Z_exact n H) as [_ V]. rewrite <- V. apply rnd_id, B2R_fmt. Qed.
Lemma step_value : is_finite step64 = true /\ Rabs (B2R step64 - 19 / 39) <= uu.
Proof.
  destruct f20_value as [F2 V2]. destruct f1_value as [F1 V1].
  assert (D : is_finite delta64 = true /\ B2R delta64 = 19).
  { assert (E19 : rnd (B2R f20 - B2R f1) = 19) by (rewrite V2, V1; replace (20 - 1) with (IZR 19) by lra; apply (rnd_int 19); lia).
    assert (T : Rabs (rnd (B2R f20 - B2R f1)) < bp 1024) by (rewrite E19, Rabs_pos_eq by lra; pose proof (bpow_le radix2 10 1024 ltac:(lia)) as B; change (bp 10) with 1024 in B; lra).
    destruct (fsub_cases f20 f1 F2 F1 T) as [E F]. unfold f64 in *. split; [exact F|]. etransitivity; [exact E|exact E19]. }
  destruct D as [Fd Vd]. destruct (f64_of_Z_exact 39 ltac:(lia)) as [F9 V9]. change (Z.of_nat (40 - 1)) with 39%Z in *.
  destruct (fdiv_about 1 1 delta64 (f64_of_Z 39) scale_1 (k_upto 1 ltac:(lra)) Fd F9) as [F E]; [rewrite V9; lra|rewrite Vd, V9, Rabs_pos_eq; lra|]. rewrite Vd, V9 in E. split; [exact F|]. eapply Rle_trans; [exact E|]. lra.
Qed.
Lemma t64_near i : (i < 40)%nat -> is_finite (t64 i) = true /\ Rabs (B2R (t64 i) - table_temperature i) <= 80 * uu.
Proof.
  intro Hi. pose proof uu_1e15. pose proof uu_pos. unfold t64. destruct (Nat.eqb_spec i (40 - 1)) as [E|E].
  - change (40 - 1)%nat with 39%nat in E. subst i. destruct f20_value as [F V]. split; [exact F|]. rewrite V. unfold table_temperature. rewrite INR_IZR_INZ. change (Z.of_nat 39) with 39%Z. replace (20 - (1 + 19 / 39 * 39)) with 0 by lra. rewrite Rabs_R0. lra.
  - destruct step_value as [Fs Es]. destruct (nat_float i ltac:(lia)) as [Fi Vi]. cbv zeta. destruct f1_value as [F1 V1].
    assert (Bs : 19 / 39 - uu <= B2R step64 <= 19 / 39 + uu) by (apply Rabs_le_inv in Es; lra).
    assert (Z : Beqb step64 f0 = false) by (apply eqb_val_f; [exact Fs|reflexivity|]; change (B2R f0) with 0; apply Rgt_not_eq; lra). rewrite Z.
    assert (I38 : 0 <= INR i <= 38). { split; [apply pos_INR|]. assert (Q : (i <= 38)%nat) by lia. apply le_INR in Q. rewrite (INR_IZR_INZ 38) in Q. exact Q. }
    assert (P : 0 <= INR i * B2R step64 <= 19) by (split; [apply Rmult_le_pos; lra|]; apply Rle_trans with (38 * (19 / 39 + uu)); [apply Rmult_le_compat; lra|lra]).
    destruct (fmul_about 1 20 (f64_of_Z (Z.of_nat i)) step64 scale_1 (k_upto 20 ltac:(lra)) Fi Fs) as [Fm Em]; [rewrite Vi, Rabs_pos_eq; lra|]. rewrite Vi in Em. set (m := fmul (f64_of_Z (Z.of_nat i)) step64) in *.
    apply Rabs_le_inv in Em. destruct (fadd_about 1 21 m f1 scale_1 (k_upto 21 ltac:(lra)) Fm F1) as [Fa Ea]; [rewrite V1; apply Rabs_le; lra|]. split; [exact Fa|]. rewrite V1 in Ea. apply Rabs_le_inv in Ea.
    assert (Q : - (38 * uu) <= INR i * (B2R step64 - 19 / 39) <= 38 * uu).
    { apply Rabs_le_inv. rewrite Rabs_mult, (Rabs_pos_eq (INR i)) by lra. apply Rmult_le_compat; [lra|apply Rabs_pos|lra|exact Es]. }
    unfold table_temperature. apply Rabs_le. lra.
Qed.
Lemma t64_first : B2R (t64 0) = 1.
Proof.
  unfold t64. cbn [Nat.eqb]. cbv zeta. pose proof uu_1e15. destruct step_value as [Fs Es]. apply Rabs_le_inv in Es. assert (Z : Beqb step64 f0 = false) by (apply eqb_val_f; [exact Fs|reflexivity|]; change (B2R f0) with 0; lra). change (40 - 1)%nat with 39%nat. cbn [Nat.eqb]. rewrite Z.
  destruct (nat_float 0 ltac:(lia)) as [Fi Vi]. destruct f1_value as [F1 V1]. change (INR 0) with 0 in Vi. set (x := f64_of_Z (Z.of_nat 0)) in *.
  assert (Nx : fin_nn x) by (split; [exact Fi|lra]). assert (Ns : fin_nn step64) by (split; [exact Fs|lra]). destruct (fmul_close x step64 Nx Ns) as [Fm Cm]; [left; rewrite Vi; ring|]. rewrite Vi, Rmult_0_l in Cm. apply close_0 in Cm.
  destruct (fadd_zero_l (fmul x step64) f1 Fm) as [_ E]; [split; [exact F1|lra]|exact Cm|]. etransitivity; [exact E|exact V1].
Qed.
Lemma t64_last : t64 39 = f20. Proof. reflexivity. Qed.
Lemma t64_gap j : (j < 39)%nat -> B2R (t64 j) + 4 / 10 <= B2R (t64 (S j)) /\ Rabs (B2R (t64 (S j)) - B2R (t64 j) - 19 / 39) <= 160 * uu.
Proof.
  intro H. pose proof uu_1e15. destruct (t64_near j ltac:(lia)) as [_ A]. destruct (t64_near (S j) ltac:(lia)) as [_ B]. apply Rabs_le_inv in A, B. unfold table_temperature in *. rewrite S_INR in B. split; [lra|]. apply Rabs_le. lra.
Qed.
Lemma t64_ge1 j : (j < 40)%nat -> 1 <= B2R (t64 j).
Proof.
  intro H. destruct j as [|j]; [rewrite t64_first; lra|]. destruct (t64_near (S j) H) as [_ A]. apply Rabs_le_inv in A. pose proof uu_1e15. unfold table_temperature in A. rewrite S_INR in A. pose proof (pos_INR j). lra.
Qed.
(** Two different numbers from 1 upwards differ by at least 2^-52. *)
Lemma unit_product (w d a : R) : - a <= w <= a -> 0 <= d <= 1 -> - a <= w * d <= a.
Proof.
  intros [A B] [C D]. assert (a * d <= a * 1) by (apply Rmult_le_compat_l; lra). assert (w * d <= a * d) by (apply Rmult_le_compat_r; lra).
  assert (- a * d <= w * d) by (apply Rmult_le_compat_r; lra). lra.
Qed.
Lemma spacing x y : fmt x -> fmt y -> 1 <= y -> y < x -> bp (-52) <= x - y.
Proof.
  intros Fx Fy H1 Hl. pose proof (succ_le_lt radix2 (FLT_exp (-1074) 53) y x Fy Fx Hl) as S. rewrite succ_eq_pos in S by lra.
  assert (U : bp (-52) <= ulp radix2 (FLT_exp (-1074) 53) y).
  { replace (bp (-52)) with (ulp radix2 (FLT_exp (-1074) 53) (bp 0)) by (rewrite ulp_bpow; reflexivity). exact (ulp_le_pos radix2 (FLT_exp (-1074) 53) (bp 0) y ltac:(change (bp 0) with 1; lra) H1). }
  lra.
Qed.
Lemma temp_weight (x : f64) j : (j < 39)%nat -> is_finite x = true -> B2R (t64 j) <= B2R x <= B2R (t64 (S j)) ->
  let y := fdiv (fsub x (t64 j)) (fsub (t64 (S j)) (t64 j)) in
  weight y /\ Rabs (table_temperature j + 19 / 39 * B2R y - B2R x) <= 250 * uu.
Proof.
  intros Hj Fx Hx y. pose proof uu_1e15 as U. pose proof uu_pos as U0. destruct (t64_near j ltac:(lia)) as [F0 E0]. destruct (t64_near (S j) ltac:(lia)) as [F1 E1]. destruct (t64_gap j Hj) as [G GE]. pose proof (t64_ge1 j ltac:(lia)) as G1. apply Rabs_le_inv in E0, GE.
  destruct (fsub_about 1 1 (t64 (S j)) (t64 j) scale_1 (k_upto 1 ltac:(lra)) F1 F0) as [FD ED]; [rewrite Rabs_pos_eq; lra|]. destruct (fsub_about 1 1 x (t64 j) scale_1 (k_upto 1 ltac:(lra)) Fx F0) as [FN EN]; [rewrite Rabs_pos_eq; lra|].
  assert (VD : B2R (fsub (t64 (S j)) (t64 j)) = rnd (B2R (t64 (S j)) - B2R (t64 j))).
  { destruct (fsub_cases (t64 (S j)) (t64 j) F1 F0) as [A _]; [|exact A]. destruct (rnd_err 1 1 (B2R (t64 (S j)) - B2R (t64 j)) scale_1 (k_upto 1 ltac:(lra))) as [_ T]; [rewrite Rabs_pos_eq; lra|exact T]. }
  assert (VN : B2R (fsub x (t64 j)) = rnd (B2R x - B2R (t64 j))).
  { destruct (fsub_cases x (t64 j) Fx F0) as [A _]; [|exact A]. destruct (rnd_err 1 1 (B2R x - B2R (t64 j)) scale_1 (k_upto 1 ltac:(lra))) as [_ T]; [rewrite Rabs_pos_eq; lra|exact T]. }
  set (D := fsub (t64 (S j)) (t64 j)) in *. set (N := fsub x (t64 j)) in *. apply Rabs_le_inv in ED, EN.
  assert (PD : 0.3 <= B2R D <= 0.6) by lra. assert (PN : 0 <= B2R N) by (rewrite VN, <- rnd_0; apply rnd_mono; lra). assert (ND : B2R N <= B2R D) by (rewrite VN, VD; apply rnd_mono; lra).
  assert (R01 : 0 <= B2R N / B2R D <= 1). { split; [apply Rmult_le_pos; [exact PN|left; apply Rinv_0_lt_compat; lra]|]. apply (Rmult_le_reg_r (B2R D)); [lra|]. unfold Rdiv. rewrite Rmult_assoc, Rinv_l by lra. lra. }
  destruct (fdiv_about 1 1 N D scale_1 (k_upto 1 ltac:(lra)) FN FD) as [Fy Ey]; [lra|rewrite Rabs_pos_eq; lra|]. fold y in Fy, Ey.
  assert (Vy : B2R y = rnd (B2R N / B2R D)).
  { apply fdiv_val; [split; [exact FN|exact PN]|split; [exact FD|lra]|exact ND|lra]. }
  assert (Wy : weight y).
  { pose proof (rnd_mono 0 (B2R N / B2R D) ltac:(lra)) as M0. rewrite rnd_0, <- Vy in M0. pose proof (rnd_mono (B2R N / B2R D) 1 ltac:(lra)) as M1. rewrite (rnd_id 1 fmt_1), <- Vy in M1.
    split; [split; assumption|]. split; [|exact M1].
    destruct (Req_dec (B2R x) (B2R (t64 j))) as [Z|Z].
    - left. rewrite Vy, VN, Z, Rminus_eq_0, rnd_0. unfold Rdiv. rewrite Rmult_0_l. apply rnd_0.
    - right. pose proof (spacing (B2R x) (B2R (t64 j)) (B2R_fmt x) (B2R_fmt (t64 j)) G1 ltac:(lra)) as Sp.
      assert (F52 : fmt (bp (-52))) by (apply generic_format_bpow; unfold FLT_exp; lia). assert (F53 : fmt (bp (-53))) by (apply generic_format_bpow; unfold FLT_exp; lia).
      assert (LN : bp (-52) <= B2R N) by (rewrite VN, <- (rnd_id _ F52); apply rnd_mono; exact Sp).
      rewrite Vy, <- (rnd_id _ F53). apply rnd_mono. pose proof (bp_pos (-52)). pose proof (bpow_le radix2 (-53) (-52) ltac:(lia)). apply (Rmult_le_reg_r (B2R D)); [lra|]. unfold Rdiv. rewrite Rmult_assoc, Rinv_l by lra.
      assert (bp (-53) * B2R D <= bp (-53) * 1) by (apply Rmult_le_compat_l; [left; apply bp_pos|lra]). lra. }
  split; [exact Wy|]. destruct Wy as ([_ Y0] & _ & Y1). apply Rabs_le_inv in Ey.
  set (d := B2R D) in *. set (yv := B2R y) in *.
  assert (P1 : - uu <= yv * d - B2R N <= uu).
  { replace (yv * d - B2R N) with ((yv - B2R N / d) * d) by (field; lra). assert (- uu <= (yv - B2R N / d) * d <= uu) by (apply unit_product; lra). lra. }
  assert (P2 : - (161 * uu) <= yv * (19 / 39 - d) <= 161 * uu) by (rewrite (Rmult_comm yv); apply unit_product; lra).
  apply Rabs_le. lra.
Qed.

(** ** Normalising 500 rows *)
Lemma assembled500 np_sum (e q : nat -> f64) (E G : nat -> R) c r1 r2 : (forall l, sums l (np_sum l)) ->
  (forall i, (i < 500)%nat -> row_ok (e i)) -> (forall i, (S i < 500)%nat -> B2R (e i) + bp (-100) <= B2R (e (S i)) /\ E i < E (S i) /\ rclose r1 (B2R (e (S i)) - B2R (e i)) (E (S i) - E i)) ->
  (forall i, (i < 500)%nat -> dens_ok (q i) /\ 0 < B2R (q i) /\ 0 < G i /\ rclose r2 (B2R (q i)) (c * G i)) -> 0 < c -> 0 <= r1 + r2 ->
  let I := integral (map (fun i => (E i, G i)) (seq 0 500)) in
  exists p, prepare_energy_pdf64 np_sum (map e (seq 0 500)) (map q (seq 0 500)) = Ok (map e (seq 0 500), map p (seq 0 500)) /\ 0 < I /\
    (forall i, (i < 500)%nat -> is_finite (p i) = true /\ 0 < B2R (p i) /\ rclose (506 + r1 + 2 * r2) (B2R (p i)) (G i / I)) /\
    rclose 506 (integral (combine (map B2R (map e (seq 0 500))) (map B2R (map p (seq 0 500))))) 1.
Proof.
  intros Hsum He Hg Hq Hc Hr I. set (el := map e (seq 0 500)). set (ql := map q (seq 0 500)).
  assert (Le : length el = 500%nat) by (unfold el; now rewrite map_length, seq_length). assert (Lq : length ql = 500%nat) by (unfold ql; now rewrite map_length, seq_length).
  assert (Re : Forall row_ok el) by (apply Forall_map, Forall_forall; intros i Hi; apply in_seq in Hi; apply He; lia).
  assert (Dq : Forall dens_ok ql) by (apply Forall_map, Forall_forall; intros i Hi; apply in_seq in Hi; apply Hq; lia).
  assert (Sp : spaced (bp (-100)) el) by (apply spaced_map; intros i _ Hi; apply Hg; lia).
  assert (Hh : B2R (hd f0 ql) <> 0) by (change (hd f0 ql) with (q 0%nat); pose proof (proj1 (proj2 (Hq 0%nat ltac:(lia)))); lra).
  assert (Hl : B2R (last ql f0) <> 0).
  { unfold ql. change 500%nat with (499 + 1)%nat. rewrite seq_app, map_app. cbn [seq map]. rewrite last_last. pose proof (proj1 (proj2 (Hq (0 + 499)%nat ltac:(lia)))). lra. }
  assert (Fin : Forall (fun x : f64 => is_finite x = true) ql) by (eapply Forall_impl; [|exact Dq]; now intros x []).
  assert (N1 : INR (length el) <= bp 40). { rewrite Le, INR_IZR_INZ. change (bp 40) with 1099511627776. change (Z.of_nat 500) with 500%Z. lra. }
  destruct (total_ok np_sum el ql Hsum ltac:(lia) ltac:(lia) N1 Re Sp Dq Hh) as (Tn & Tc & TI). set (t := np_sum (panels64 el ql)) in *. set (I' := integral (combine (map B2R el) (map B2R ql))) in *.
  rewrite Le in Tc. assert (N2 : INR (500 + 3) <= bp 42). { rewrite INR_IZR_INZ. change (bp 42) with 4398046511104. change (Z.of_nat (500 + 3)) with 503%Z. lra. }
  assert (I0 : 0 < I) by (unfold I; apply (integral_2pos E G 500 0); [lia|intros; apply Hg; lia|intros; apply Hq; lia]).
  assert (EI : I' = integral (map (fun i => (B2R (e i), B2R (q i))) (seq 0 500))) by (unfold I', el, ql; rewrite !map_map; now rewrite combine_map_map).
  assert (CI : rclose (r1 + r2) I' (c * I)).
  { rewrite EI. unfold I. rewrite <- integral_factor. apply (integral_rclose r1 r2 (fun i => B2R (e i)) E (fun i => B2R (q i)) (fun i => c * G i)); [intros; apply Hg; lia|intros; apply Hq; lia|exact Hr]. }
  pose proof (bp_pos (-701)) as Pb. assert (I'0 : 0 < I') by lra.
  exists (fun i => fdiv (q i) t). split.
  { pose proof (prepare_split np_sum [] el [] [] ql [] eq_refl ltac:(lia) eq_refl ltac:(constructor) ltac:(constructor) Fin) as P. cbn [app] in P. rewrite !app_nil_r in P. rewrite P; [|intro Z; rewrite Z in Lq; discriminate Lq|exact Hh|exact Hl]. fold t. unfold ql at 1. now rewrite map_map. }
  assert (Qk : forall i, (i < 500)%nat -> fin_nn (fdiv (q i) t) /\ close (500 + 4) (B2R (fdiv (q i) t)) (B2R (q i) / I')).
  { intros i Hi. destruct (Hq i Hi) as (D & P & _). exact (quotient_ok (q i) t I' (500 + 3) N2 D Tn Tc TI). }
  assert (N4 : 1.001 * INR (500 + 4) <= 506). { rewrite INR_IZR_INZ. change (Z.of_nat (500 + 4)) with 504%Z. lra. }
  split; [exact I0|]. split.
  - intros i Hi. destruct (Qk i Hi) as [F C]. destruct (Hq i Hi) as (D & P & GP & R2). apply rclose_of_close in C.
    assert (0 < B2R (q i) / I') by (apply Rdiv_lt_0_compat; lra). split; [apply F|]. split; [eapply rclose_pos; [exact C|assumption]|].
    assert (R3 : rclose (r2 + (r1 + r2)) (B2R (q i) / I') (c * G i / (c * I))) by (apply rclose_div; [exact R2|exact CI|apply Rmult_lt_0_compat; assumption]).
    replace (c * G i / (c * I)) with (G i / I) in R3 by (field; lra). eapply rclose_weaken; [|exact (rclose_trans _ _ _ _ _ C R3)]. lra.
  - unfold el. rewrite !map_map, combine_map_map. replace 1 with (/ I' * I') by (field; lra). rewrite EI at 2. rewrite <- integral_factor. replace 506 with (0 + 506) by ring.
    apply (integral_rclose 0 506 (fun i => B2R (e i)) (fun i => B2R (e i))).
    + intros i _ Hi. apply rclose_refl; [lra|]. destruct (Hg i Hi) as (Q & _). pose proof (bp_pos (-100)). lra.
    + intros i Hi. destruct (Qk i ltac:(lia)) as [_ C]. apply rclose_of_close in C. replace (/ I' * B2R (q i)) with (B2R (q i) / I') by (unfold Rdiv; ring). eapply rclose_weaken; [exact N4|exact C].
    + lra.
Qed.

(** ** The data of the file *)
Definition dec_wide (a b : dec) : bool := match a, b with V m e, V n f => Z.leb (500 * (m * 10 ^ Z.of_N f)) (499 * (n * 10 ^ Z.of_N e)) end.
Fixpoint dec_spread (l : list dec) : bool :=
  match l with a :: ((b :: _) as r) => dec_wide a b && dec_spread r | _ => true end.
Definition dec_milli (d : dec) : bool := match d with V m e => Z.leb (10 ^ Z.of_N e) (1000 * m) end.
Lemma spread_checked : dec_spread (map fst tt_rows) && forallb (fun row => dec_milli (fst row)) tt_rows = true.
Proof. vm_compute. reflexivity. Qed.
Lemma pow10_pos e : 0 < IZR (10 ^ Z.of_N e).
Proof. rewrite ten_pow. apply pow_lt. lra. Qed.
Lemma dec_wide_le a b : dec_wide a b = true -> 500 * decimal a <= 499 * decimal b.
Proof.
  destruct a as [m e], b as [n f]. unfold dec_wide, decimal. intro H. apply Z.leb_le, IZR_le in H. rewrite !mult_IZR in H.
  pose proof (pow10_pos e) as Pe. pose proof (pow10_pos f) as Pf. set (A := IZR (10 ^ Z.of_N e)) in *. set (B := IZR (10 ^ Z.of_N f)) in *.
  apply (Rmult_le_reg_r (A * B)); [now apply Rmult_lt_0_compat|].
  replace (500 * (IZR m / A) * (A * B)) with (500 * (IZR m * B)) by (field; lra). replace (499 * (IZR n / B) * (A * B)) with (499 * (IZR n * A)) by (field; lra). exact H.
Qed.
Lemma dec_milli_le d : dec_milli d = true -> / 1000 <= decimal d.
Proof.
  destruct d as [m e]. unfold dec_milli, decimal. intro H. apply Z.leb_le, IZR_le in H. rewrite mult_IZR in H. pose proof (pow10_pos e) as P. set (A := IZR (10 ^ Z.of_N e)) in *.
  apply (Rmult_le_reg_r A); [exact P|]. unfold Rdiv. rewrite Rmult_assoc, Rinv_l by lra. lra.
Qed.
Lemma spread_adjacent l : dec_spread l = true -> forall i d, (S i < length l)%nat -> 500 * decimal (nth i l d) <= 499 * decimal (nth (S i) l d).
Proof.
  induction l as [|x l IH]; intros H i d Hi; [cbn in Hi; lia|]. destruct l as [|y l]; [cbn in Hi; lia|].
  change (dec_wide x y && dec_spread (y :: l) = true) in H. apply andb_prop in H. destruct H as [H1 H2]. destruct i as [|i].
  - cbn [nth]. now apply dec_wide_le.
  - change (nth (S i) (x :: y :: l) d) with (nth i (y :: l) d). change (nth (S (S i)) (x :: y :: l) d) with (nth (S i) (y :: l) d). apply IH; [exact H2|]. cbn [length] in *. lia.
Qed.
Definition dr : dec * list dec := (V 0 0, []).
Definition dr64 : f64 * list f64 := (f0, []).
Definition De (i : nat) : dec := fst (nth i tt_rows dr).
Definition Ds (i j : nat) : dec := nth j (snd (nth i tt_rows dr)) (V 0 0).
Definition EE (i : nat) : R := 1000 * decimal (De i).
Definition GG (j i : nat) : R := decimal (Ds i j) / 1000.
Lemma tt_len : length tt_rows = 500%nat. Proof. apply table_facts. Qed.
Lemma energies_seq : table_energies = map EE (seq 0 500).
Proof. unfold table_energies. rewrite (map_as_seq _ _ dr), tt_len. reflexivity. Qed.
Lemma spectrum_seq j : table_spectrum j = map (GG j) (seq 0 500).
Proof. unfold table_spectrum. rewrite (map_as_seq _ _ dr), tt_len. reflexivity. Qed.
Lemma data_energy i : (i < 500)%nat -> / 1000 <= decimal (De i) <= 100.
Proof.
  intro H. assert (Hin : In (nth i tt_rows dr) tt_rows) by (apply nth_In; rewrite tt_len; exact H). destruct (row_facts _ Hin) as [R _]. fold (De i) in R. split; [|apply R].
  pose proof spread_checked as C. apply andb_prop in C. destruct C as [_ C]. rewrite forallb_forall in C. apply dec_milli_le, (C _ Hin).
Qed.
Lemma data_gap i : (S i < 500)%nat -> 500 * EE i <= 499 * EE (S i).
Proof.
  intro H. pose proof spread_checked as C. apply andb_prop in C. destruct C as [C _]. pose proof (spread_adjacent _ C i (fst dr) ltac:(rewrite map_length, tt_len; exact H)) as A. rewrite !map_nth in A. unfold EE, De. lra.
Qed.
Lemma tenm100 : bp (-340) <= powerRZ 10 (-100).
Proof.
  change (powerRZ 10 (-100)) with (/ 10 ^ 100). rewrite pow_IZR. change (Z.of_nat 100) with 100%Z. change (bp (-340)) with (/ IZR (2 ^ 340)). apply Rinv_le_contravar; [apply IZR_lt; now vm_compute|]. apply IZR_le, Z.leb_le. now vm_compute.
Qed.
Lemma data_density i j : (i < 500)%nat -> (j < 40)%nat -> bp (-340) <= decimal (Ds i j) <= 1.
Proof.
  intros Hi Hj. assert (Hin : In (nth i tt_rows dr) tt_rows) by (apply nth_In; rewrite tt_len; exact Hi). destruct table_facts as (_ & _ & F). destruct (F _ Hin) as [L _]. destruct (row_facts _ Hin) as [_ P].
  specialize (P (Ds i j) ltac:(apply nth_In; lia)). pose proof tenm100. lra.
Qed.

(** ** The numbers in memory *)
Lemma Forall2_len {A B} (P : A -> B -> Prop) l l' : Forall2 P l l' -> length l = length l'.
Proof. induction 1; cbn; congruence. Qed.
Lemma Forall2_nth {A B} (P : A -> B -> Prop) l l' a b : Forall2 P l l' -> forall i, (i < length l')%nat -> P (nth i l a) (nth i l' b).
Proof. induction 1 as [|x y l l' H _ IH]; intros i Hi; [cbn in Hi; lia|]. destruct i as [|i]; [exact H|]. apply IH. cbn in Hi. lia. Qed.
Lemma uu_53 : uu = / 2 ^ 53.
Proof. rewrite uu_val, (pow_IZR 2 53). reflexivity. Qed.
Lemma factor_close c F : factor_ok c F -> / 1000 <= F <= 1000 -> is_finite c = true /\ rclose 8.16 (B2R c) F /\ bp (-11) <= B2R c <= bp 11.
Proof.
  intros [Fc Ec] HF. split; [exact Fc|]. pose proof uu_pos. pose proof uu_1e15. assert (E8 : F / 2 ^ 50 = 8 * uu * F).
  { rewrite uu_53. replace (2 ^ 53) with (8 * 2 ^ 50) by ring. field. }
  rewrite E8 in Ec. assert (C : rclose 8.16 (B2R c) F). { replace 8.16 with (1.02 * 8) by lra. apply rclose_of_abs; lra. }
  split; [exact C|]. apply Rabs_le_inv in Ec. change (bp (-11)) with (/ 2048). change (bp 11) with 2048. assert (0 <= uu * F <= / 1000000000 * F) by (split; [apply Rmult_le_pos; lra|apply Rmult_le_compat_r; lra]). lra.
Qed.
Lemma scaled_value x d c F : read_as x d -> bp (-340) <= decimal d <= 100 -> factor_ok c F -> / 1000 <= F <= 1000 ->
  is_finite (fmul x c) = true /\ rclose 10.2 (B2R (fmul x c)) (decimal d * F) /\ bp (-355) <= B2R (fmul x c) <= bp 20.
Proof.
  intros [Fx Vx] Hd Hc HF. destruct (factor_close c F Hc HF) as (Fc & Cc & Bc). pose proof (bp_pos (-340)). pose proof (bp_pos (-11)).
  assert (C1 : close 1 (B2R x) (decimal d)). { rewrite Vx. apply rnd_close. right. pose proof (bpow_le radix2 (-1022) (-340) ltac:(lia)). lra. }
  pose proof wp1_2 as W. pose proof (bp_step (-341)) as E1. change (-341 + 1)%Z with (-340)%Z in E1. pose proof (bp_pos (-341)).
  assert (Bx : bp (-341) <= B2R x <= bp 8). { destruct C1 as (C0 & C1 & C2 & C3). change (bp 8) with 256. assert (B2R x * wp 1 <= B2R x * 2) by (apply Rmult_le_compat_l; lra). assert (decimal d * wp 1 <= decimal d * 2) by (apply Rmult_le_compat_l; lra). lra. }
  assert (Bp : bp (-352) <= B2R x * B2R c <= bp 19).
  { replace (bp (-352)) with (bp (-341) * bp (-11)) by (rewrite bp_mul; reflexivity). replace (bp 19) with (bp 8 * bp 11) by (rewrite bp_mul; reflexivity). split; apply Rmult_le_compat; lra. }
  destruct (fmul_close x c) as [Fm Cm]; [split; [exact Fx|lra]|split; [exact Fc|lra]|apply (normal_of _ (-352) 19); [exact Bp|lia|lia]|]. split; [apply Fm|]. split.
  - apply rclose_of_close in C1. apply rclose_of_close in Cm. cbn [INR] in C1, Cm. eapply rclose_weaken; [|exact (rclose_trans _ _ _ _ _ Cm (rclose_mult _ _ _ _ _ _ C1 Cc))]. lra.
  - pose proof (bp_pos (-352)). pose proof (bp_step (-353)) as E3. change (-353 + 1)%Z with (-352)%Z in E3. pose proof (bpow_le radix2 (-355) (-353) ltac:(lia)). pose proof (bp_step 19) as E4. change (19 + 1)%Z with 20%Z in E4. destruct Cm as (C0 & _ & C2 & C3). assert (B2R (fmul x c) * wp 1 <= B2R (fmul x c) * 2) by (apply Rmult_le_compat_l; lra).
    assert (B2R x * B2R c * wp 1 <= B2R x * B2R c * 2) by (apply Rmult_le_compat_l; lra). lra.
Qed.

Section Table.
  Variables (mev per_mev : f64) (rows : list (f64 * list f64)).
  Hypotheses (Hm : factor_ok mev 1000) (Hp : factor_ok per_mev (/ 1000)) (Hr : read_rows rows).
  Let d := make_tt64 mev per_mev rows.
  Definition ee64 (i : nat) : f64 := fmul (fst (nth i rows dr64)) mev.
  Definition vv64 (i j : nat) : f64 := nth j (nth i (tt_spectra64 d) []) f0.
  Lemma rows_len : length rows = 500%nat.
  Proof. etransitivity; [exact (Forall2_len _ _ _ Hr)|exact tt_len]. Qed.
  Lemma row_at i : (i < 500)%nat -> read_as (fst (nth i rows dr64)) (De i) /\ Forall2 read_as (snd (nth i rows dr64)) (snd (nth i tt_rows dr)).
  Proof. intro H. exact (Forall2_nth _ _ _ dr64 dr Hr i ltac:(rewrite tt_len; exact H)). Qed.
  Lemma energy_seq : tt_energy64 d = map ee64 (seq 0 500).
  Proof. cbn [d make_tt64 tt_energy64]. rewrite (map_as_seq _ _ dr64), rows_len. reflexivity. Qed.
  Lemma ee_ok i : (i < 500)%nat -> is_finite (ee64 i) = true /\ rclose 10.2 (B2R (ee64 i)) (EE i) /\ 1 <= EE i <= 100000.
  Proof.
    intro H. pose proof (data_energy i H) as B. destruct (row_at i H) as [Ra _]. pose proof (bpow_le radix2 (-340) (-10) ltac:(lia)) as Q. change (bp (-10)) with (/ 1024) in Q.
    destruct (scaled_value _ _ _ _ Ra ltac:(lra) Hm ltac:(lra)) as (F & C & _). split; [exact F|]. unfold EE. rewrite (Rmult_comm 1000). split; [exact C|]. lra.
  Qed.
  Lemma ee_abs i : (i < 500)%nat -> Rabs (B2R (ee64 i) - EE i) <= 10.4 * (uu * EE i).
  Proof. intro H. destruct (ee_ok i H) as (_ & C & B). pose proof uu_1e15. pose proof uu_pos. pose proof (rclose_abs 10.2 _ _ ltac:(lra) ltac:(lra) C) as A. eapply Rle_trans; [exact A|]. assert (0 <= uu * EE i) by (apply Rmult_le_pos; lra). lra. Qed.
  Lemma ee_gap i : (S i < 500)%nat -> rclose 10610 (B2R (ee64 (S i)) - B2R (ee64 i)) (EE (S i) - EE i) /\ EE i < EE (S i) /\ B2R (ee64 i) + bp (-100) <= B2R (ee64 (S i)).
  Proof.
    intro H. pose proof uu_1e15. pose proof uu_pos. pose proof (data_gap i H) as G. destruct (ee_ok i ltac:(lia)) as (_ & _ & B0). destruct (ee_ok (S i) H) as (_ & _ & B1). pose proof (ee_abs i ltac:(lia)) as A0. pose proof (ee_abs (S i) H) as A1.
    assert (Gp : EE (S i) <= 500 * (EE (S i) - EE i)) by lra. assert (U1 : 0 <= uu * EE (S i)) by (apply Rmult_le_pos; lra). assert (U0 : uu * EE i <= uu * EE (S i)) by (apply Rmult_le_compat_l; lra).
    assert (U2 : uu * EE (S i) <= 500 * (uu * (EE (S i) - EE i))) by (assert (uu * EE (S i) <= uu * (500 * (EE (S i) - EE i))) by (apply Rmult_le_compat_l; lra); lra).
    assert (A : Rabs (B2R (ee64 (S i)) - B2R (ee64 i) - (EE (S i) - EE i)) <= 10400 * uu * (EE (S i) - EE i)) by (apply Rabs_le_inv in A0, A1; apply Rabs_le; lra).
    split; [|split; [lra|]].
    - eapply rclose_weaken; [|apply (rclose_of_abs 10400); [lra|lra|lra|exact A]]. lra.
    - apply Rabs_le_inv in A. assert (uu * (EE (S i) - EE i) <= / 1000000000000 * (EE (S i) - EE i)) by (apply Rmult_le_compat_r; lra). pose proof (bpow_le radix2 (-100) (-10) ltac:(lia)) as Q. change (bp (-10)) with (/ 1024) in Q. lra.
  Qed.
  Lemma vv_ok i j : (i < 500)%nat -> (j < 40)%nat -> entry (vv64 i j) /\ rclose 10.2 (B2R (vv64 i j)) (GG j i).
  Proof.
    intros Hi Hj. destruct (row_at i Hi) as [_ Rb]. pose proof (data_density i j Hi Hj) as B.
    assert (Hin : In (nth i tt_rows dr) tt_rows) by (apply nth_In; rewrite tt_len; exact Hi). destruct table_facts as (_ & _ & F). destruct (F _ Hin) as [L _].
    pose proof (Forall2_nth _ _ _ f0 (V 0 0) Rb j ltac:(lia)) as Rj. fold (Ds i j) in Rj.
    assert (Ev : vv64 i j = fmul (nth j (snd (nth i rows dr64)) f0) per_mev).
    { unfold vv64. cbn [d make_tt64 tt_spectra64]. change (@nil f64) with ((fun row : f64 * list f64 => map (fun x => fmul x per_mev) (snd row)) dr64). rewrite map_nth.
      rewrite (nth_indep _ f0 ((fun x => fmul x per_mev) f0)) by (rewrite map_length; pose proof (Forall2_len _ _ _ Rb) as Q; lia). apply (map_nth (fun x => fmul x per_mev)). }
    rewrite Ev. destruct (scaled_value _ _ _ _ Rj ltac:(lra) Hp ltac:(lra)) as (Fv & C & Bv). split; [split; [exact Fv|]|exact C].
    pose proof (bpow_le radix2 (-360) (-355) ltac:(lia)). lra.
  Qed.

  (** ** One point of the spectrum *)
  Lemma ee_increasing i k : (i < k)%nat -> (k < 500)%nat -> B2R (ee64 i) < B2R (ee64 k).
  Proof.
    intros H Hk. induction k as [|k IH]; [lia|]. destruct (ee_gap k Hk) as (_ & _ & G). pose proof (bp_pos (-100)). destruct (Nat.eq_dec i k) as [-> |N]; [lra|]. specialize (IH ltac:(lia) ltac:(lia)). lra.
  Qed.
  Lemma ee_interval i : (i < 500)%nat -> interval_from64 0 (tt_energy64 d) (ee64 i) = if Nat.eqb i 499 then 498%nat else i.
  Proof.
    intro Hi. rewrite energy_seq. assert (Fin : forall k, (0 <= k < 0 + 500)%nat -> is_finite (ee64 k) = true) by (intros; apply ee_ok; lia).
    assert (B : B2R (ee64 0) <= B2R (ee64 i) <= B2R (ee64 (0 + 500 - 1))).
    { split; [destruct (Nat.eq_dec i 0) as [-> |N]; [lra|left; apply ee_increasing; lia]|]. change (0 + 500 - 1)%nat with 499%nat. destruct (Nat.eq_dec i 499) as [-> |N]; [lra|left; apply ee_increasing; lia]. }
    destruct (interval_ok ee64 (ee64 i) 500 0 ltac:(lia) Fin (proj1 (ee_ok i Hi)) B) as (_ & J1 & J2 & J3). set (j := interval_from64 0 (map ee64 (seq 0 500)) (ee64 i)) in *.
    assert (L1 : (j <= i)%nat). { destruct (le_lt_dec j i) as [L|L]; [exact L|]. pose proof (ee_increasing i j L ltac:(lia)). lra. }
    assert (L2 : (i <= S j)%nat). { destruct (le_lt_dec i (S j)) as [L|L]; [exact L|]. pose proof (ee_increasing (S j) i L Hi). lra. }
    destruct (Nat.eqb_spec i 499) as [E|E].
    - destruct J3 as [J3|J3]; [|lia]. destruct (Nat.eq_dec i (S j)) as [Q|Q]; [rewrite Q in J3; lra|lia].
    - destruct J3 as [J3|J3]; [|lia]. destruct (Nat.eq_dec i (S j)) as [Q|Q]; [rewrite Q in J3; lra|lia].
  Qed.
  Lemma weight_of (y : f64) v : is_finite y = true -> B2R y = v -> v = 0 \/ v = 1 -> weight y.
  Proof.
    intros F V H. pose proof (bpow_le radix2 (-53) 0 ltac:(lia)) as B. change (bp 0) with 1 in B. split; [split; [exact F|lra]|]. lra.
  Qed.
  Lemma value_ok i j (x : f64) : (i < 500)%nat -> (j < 39)%nat -> interval_from64 0 (tt_temps64 d) x = j -> weight (norm_distance64 (tt_temps64 d) j x) ->
    let y := norm_distance64 (tt_temps64 d) j x in let q := grid_value64 d (ee64 i) x in
    fin_nn q /\ close 6 (B2R q) (B2R (vv64 i j) * B2R (fsub f1 y) + B2R (vv64 i (S j)) * B2R y).
  Proof.
    intros Hi Hj Ej Wy y q. fold y in Wy. unfold q, grid_value64. rewrite Ej, (ee_interval i Hi). fold y. change (fun i j0 : nat => nth j0 (nth i (tt_spectra64 d) []) f0) with vv64.
    set (k := if Nat.eqb i 499 then 498%nat else i). assert (Hk : (S k < 500)%nat) by (unfold k; destruct (Nat.eqb_spec i 499); lia).
    set (y0 := norm_distance64 (tt_energy64 d) k (ee64 i)).
    assert (N : y0 = fdiv (fsub (ee64 i) (ee64 k)) (fsub (ee64 (S k)) (ee64 k))).
    { unfold y0, norm_distance64. rewrite energy_seq, !nth_map_seq by lia. reflexivity. }
    destruct (ee_ok i Hi) as (Fi & _). destruct (ee_ok k ltac:(lia)) as (Fk & _ & Bk). destruct (ee_ok (S k) Hk) as (FS & _ & BS). destruct (ee_gap k Hk) as (_ & _ & Gk). pose proof (bp_pos (-100)).
    pose proof (ee_abs k ltac:(lia)) as Ak. pose proof (ee_abs (S k) Hk) as AS. apply Rabs_le_inv in Ak, AS. pose proof uu_1e15. pose proof uu_pos. assert (0 <= uu * EE k <= / 1000000 * EE k) by (split; [apply Rmult_le_pos; lra|apply Rmult_le_compat_r; lra]). assert (0 <= uu * EE (S k) <= / 1000000 * EE (S k)) by (split; [apply Rmult_le_pos; lra|apply Rmult_le_compat_r; lra]).
    set (g := B2R (ee64 (S k)) - B2R (ee64 k)) in *. assert (Hg : bp (-100) <= g <= 200000) by (unfold g; lra).
    assert (TD : Rabs (rnd g) < bp 1024). { apply rnd_top. split; [lra|]. pose proof (bpow_le radix2 20 1023 ltac:(lia)) as Q. change (bp 20) with 1048576 in Q. lra. }
    destruct (fsub_cases (ee64 (S k)) (ee64 k) FS Fk TD) as [VD FD]. unfold f64 in *. fold g in VD. set (D := fsub (ee64 (S k)) (ee64 k)) in *.
    assert (PD : 0 < B2R D). { rewrite VD. assert (F100 : fmt (bp (-100))) by (apply generic_format_bpow; unfold FLT_exp; lia). pose proof (rnd_mono _ _ (proj1 Hg)) as M. rewrite (rnd_id _ F100) in M. lra. }
    assert (Y : is_finite y0 = true /\ B2R y0 = (if Nat.eqb i 499 then 1 else 0)).
    { rewrite N. unfold k in *. destruct (Nat.eqb_spec i 499) as [E|E].
      - subst i. fold D. assert (Q : B2R D / B2R D = 1) by (field; lra). split.
        + apply (fdiv_close D D); [split; [exact FD|lra]|split; [exact FD|lra]|exact PD|]. rewrite Q. apply (normal_of 1 0 0); [change (bp 0) with 1; lra|lia|lia].
        + eapply eq_trans; [apply fdiv_val; [split; [exact FD|lra]|split; [exact FD|lra]|lra|exact PD]|]. transitivity (rnd 1); [f_equal; exact Q|apply rnd_id, fmt_1].
      - assert (Z0 : rnd (B2R (ee64 i) - B2R (ee64 i)) = 0) by (rewrite Rminus_eq_0; apply rnd_0).
        assert (TN : Rabs (rnd (B2R (ee64 i) - B2R (ee64 i))) < bp 1024) by (rewrite Z0, Rabs_R0; apply bp_pos).
        destruct (fsub_cases (ee64 i) (ee64 i) Fi Fi TN) as [VN FN]. unfold f64 in *. rewrite Z0 in VN. set (Nn := fsub (ee64 i) (ee64 i)) in *. fold D.
        assert (Q : B2R Nn / B2R D = 0) by (rewrite VN; unfold Rdiv; ring). destruct (fdiv_close Nn D) as [A B]; [split; [exact FN|lra]|split; [exact FD|lra]|exact PD|now left|]. split; [apply A|]. rewrite Q in B. now apply close_0 in B. }
    destruct Y as [Fy Vy]. assert (W0 : weight y0) by (apply (weight_of y0 _ Fy Vy); destruct (Nat.eqb i 499); [right|left]; reflexivity).
    destruct (vv_ok k j ltac:(lia) ltac:(lia)) as [E1 _]. destruct (vv_ok k (S j) ltac:(lia) ltac:(lia)) as [E2 _]. destruct (vv_ok (S k) j ltac:(lia) ltac:(lia)) as [E3 _]. destruct (vv_ok (S k) (S j) ltac:(lia) ltac:(lia)) as [E4 _].
    destruct (bilinear_ok vv64 k j y0 y E1 E2 E3 E4 W0 Wy) as [Fq Cq]. split; [exact Fq|].
    destruct (one_minus y0 (proj1 W0) (proj2 (proj2 W0))) as (_ & V1 & _). rewrite V1, Vy in Cq.
    replace (B2R (vv64 i j) * B2R (fsub f1 y) + B2R (vv64 i (S j)) * B2R y) with
      (B2R (vv64 k j) * rnd (1 - (if Nat.eqb i 499 then 1 else 0)) * B2R (fsub f1 y) + B2R (vv64 k (S j)) * rnd (1 - (if Nat.eqb i 499 then 1 else 0)) * B2R y +
       B2R (vv64 (S k) j) * (if Nat.eqb i 499 then 1 else 0) * B2R (fsub f1 y) + B2R (vv64 (S k) (S j)) * (if Nat.eqb i 499 then 1 else 0) * B2R y); [exact Cq|].
    unfold k. destruct (Nat.eqb_spec i 499) as [-> |E].
    - replace (1 - 1) with 0 by ring. rewrite rnd_0. ring.
    - replace (1 - 0) with 1 by ring. rewrite (rnd_id 1 fmt_1). ring.
  Qed.

  (** ** The spectrum at a temperature inside the range *)
  Lemma spectrum_entry j i : (i < 500)%nat -> nth i (table_spectrum j) 0 = GG j i.
  Proof. intro H. rewrite spectrum_seq. now apply nth_map_seq. Qed.
  Lemma GG_pos j i : (i < 500)%nat -> (j < 40)%nat -> 0 < GG j i.
  Proof. intros Hi Hj. pose proof (data_density i j Hi Hj). pose proof (bp_pos (-340)). unfold GG. lra. Qed.
  Lemma temp_width j : table_temperature (S j) - table_temperature j = 19 / 39.
  Proof. unfold table_temperature. rewrite S_INR. ring. Qed.
  Lemma at_temperature (x : f64) : is_finite x = true -> 1 <= B2R x <= 20 ->
    exists j t c q, (j < 39)%nat /\ table_temperature j <= t <= table_temperature (S j) /\ Rabs (t - B2R x) <= 256 * uu /\ 0 < c /\
      map (fun e => grid_value64 d e x) (tt_energy64 d) = map q (seq 0 500) /\
      forall i, (i < 500)%nat -> dens_ok (q i) /\ 0 < B2R (q i) /\ 0 < interpolated j t i /\ rclose 17 (B2R (q i)) (c * interpolated j t i).
  Proof.
    intros Fx Hx. pose proof uu_1e15 as U. pose proof uu_pos as U0.
    assert (Fin : forall k, (0 <= k < 0 + 40)%nat -> is_finite (t64 k) = true) by (intros; apply t64_near; lia).
    assert (B : B2R (t64 0) <= B2R x <= B2R (t64 (0 + 40 - 1))) by (change (0 + 40 - 1)%nat with 39%nat; rewrite t64_first, t64_last, (proj2 f20_value); exact Hx).
    destruct (interval_ok t64 x 40 0 ltac:(lia) Fin Fx B) as (_ & J1 & J2 & _). set (j := interval_from64 0 (map t64 (seq 0 40)) x) in *.
    assert (Ej : interval_from64 0 (tt_temps64 d) x = j) by reflexivity. assert (Hj : (j < 39)%nat) by lia.
    destruct (temp_weight x j Hj Fx J2) as [Wy Et]. set (y := fdiv (fsub x (t64 j)) (fsub (t64 (S j)) (t64 j))) in *.
    assert (Ey : norm_distance64 (tt_temps64 d) j x = y).
    { change (tt_temps64 d) with (map t64 (seq 0 40)). unfold norm_distance64. rewrite !nth_map_seq by lia. reflexivity. }
    destruct (one_minus y (proj1 Wy) (proj2 (proj2 Wy))) as (_ & _ & Wz & Ez). set (z := fsub f1 y) in *. apply Rabs_le_inv in Ez.
    pose proof (proj2 (proj1 Wy)) as Y0. pose proof (proj2 (proj2 Wy)) as Y1. pose proof (proj2 (proj1 Wz)) as Z0. pose proof (proj2 (proj2 Wz)) as Z1. set (yv := B2R y) in *. set (zv := B2R z) in *.
    set (c := zv + yv). assert (Hc : 1 - uu <= c <= 1 + uu) by (unfold c; lra).
    set (t := table_temperature j + yv / c * (19 / 39)).
    assert (Hu : 0 <= yv / c <= 1). { split; [apply Rmult_le_pos; [lra|left; apply Rinv_0_lt_compat; lra]|]. apply (Rmult_le_reg_r c); [lra|]. unfold Rdiv. rewrite Rmult_assoc, Rinv_l by lra. unfold c. lra. }
    exists j, t, c, (fun i => grid_value64 d (ee64 i) x). split; [exact Hj|]. split; [pose proof (temp_width j); unfold t; lra|]. split; [|split; [lra|split]].
    - assert (Q : Rabs (yv / c - yv) <= 2 * uu).
      { replace (yv / c - yv) with (yv / c * (1 - c)) by (field; lra). rewrite Rabs_mult, (Rabs_pos_eq (yv / c)) by lra. assert (Rabs (1 - c) <= uu) by (apply Rabs_le; lra). apply Rle_trans with (1 * uu); [apply Rmult_le_compat; try lra; apply Rabs_pos|lra]. }
      apply Rabs_le_inv in Q, Et. apply Rabs_le. unfold t. lra.
    - rewrite energy_seq, map_map. reflexivity.
    - intros i Hi. pose proof (GG_pos j i Hi ltac:(lia)) as P0. pose proof (GG_pos (S j) i Hi ltac:(lia)) as P1.
      assert (EI : interpolated j t i = (1 - yv / c) * GG j i + yv / c * GG (S j) i).
      { unfold interpolated. rewrite temp_width, !spectrum_entry by exact Hi. replace ((t - table_temperature j) / (19 / 39)) with (yv / c) by (unfold t; lra). reflexivity. }
      assert (PI : 0 < interpolated j t i). { rewrite EI. destruct (Rle_lt_dec (yv / c) (/ 2)); nra. }
      destruct (value_ok i j x Hi Hj Ej ltac:(rewrite Ey; exact Wy)) as [Fq Cq]. cbv zeta in Cq. rewrite Ey in Cq. fold z yv zv in Cq.
      destruct (vv_ok i j Hi ltac:(lia)) as [E0 R0]. destruct (vv_ok i (S j) Hi ltac:(lia)) as [E1 R1]. pose proof E0 as [_ B0]. pose proof E1 as [_ B1]. set (v0 := B2R (vv64 i j)) in *. set (v1 := B2R (vv64 i (S j))) in *.
      pose proof (bp_pos (-360)) as Q0. pose proof (bp_pos 20) as Q20. set (X := v0 * zv + v1 * yv) in *.
      assert (BX : bp (-362) <= X <= bp 22).
      { pose proof (bp_step (-361)) as S1. change (-361 + 1)%Z with (-360)%Z in S1. pose proof (bp_step (-362)) as S2. change (-362 + 1)%Z with (-361)%Z in S2. pose proof (bp_step 20) as S3. change (20 + 1)%Z with 21%Z in S3. pose proof (bp_step 21) as S4. change (21 + 1)%Z with 22%Z in S4.
        assert (bp (-360) * zv <= v0 * zv <= bp 20 * zv) by (split; apply Rmult_le_compat_r; lra). assert (bp (-360) * yv <= v1 * yv <= bp 20 * yv) by (split; apply Rmult_le_compat_r; lra).
        assert (bp (-360) * c <= X <= bp 20 * c) by (unfold c, X; lra). assert (bp (-360) * (1 - uu) <= bp (-360) * c) by (apply Rmult_le_compat_l; lra). assert (bp 20 * c <= bp 20 * (1 + uu)) by (apply Rmult_le_compat_l; lra). assert (bp (-360) * (1 - uu) >= bp (-360) * (1 / 2)) by (apply Rle_ge, Rmult_le_compat_l; lra). assert (bp 20 * (1 + uu) <= bp 20 * 2) by (apply Rmult_le_compat_l; lra). lra. }
      assert (W6 : wp 6 <= 2). { rewrite <- bp_1. apply wp_2. replace (INR 6) with 6 by (cbn; ring). lra. }
      assert (Bq : bp (-363) <= B2R (grid_value64 d (ee64 i) x) <= bp 23).
      { pose proof (bp_step (-363)) as S1. change (-363 + 1)%Z with (-362)%Z in S1. pose proof (bp_step 22) as S3. change (22 + 1)%Z with 23%Z in S3. destruct Cq as (C0 & C1 & C2 & C3).
        pose proof (bp_pos (-362)). set (qv := B2R (grid_value64 d (ee64 i) x)) in *. assert (qv * wp 6 <= qv * 2) by (apply Rmult_le_compat_l; lra). assert (X * wp 6 <= X * 2) by (apply Rmult_le_compat_l; lra). lra. }
      pose proof (bpow_le radix2 (-600) (-363) ltac:(lia)) as L1. pose proof (bpow_le radix2 23 100 ltac:(lia)) as L2. pose proof (bp_pos (-363)).
      split; [split; [apply Fq|right; lra]|]. split; [lra|]. split; [exact PI|].
      apply rclose_of_close in Cq. replace (1.001 * INR 6) with 6.006 in Cq by (cbn; lra).
      assert (RX : rclose 10.2 X (c * interpolated j t i)).
      { rewrite EI. replace (c * ((1 - yv / c) * GG j i + yv / c * GG (S j) i)) with (zv * GG j i + yv * GG (S j) i) by (unfold c; field; unfold c in Hc; lra).
        unfold X. rewrite (Rmult_comm v0), (Rmult_comm v1). apply rclose_plus; apply rclose_scale; assumption. }
      eapply rclose_weaken; [|exact (rclose_trans _ _ _ _ _ Cq RX)]. lra.
  Qed.
  (** The temperature after clipping. *)
  Definition held (T : f64) : f64 := if Bltb f1 T && Bltb T f20 then T else clip64 f1 f20 T.
  Lemma held_ok T t : is_nan T = false -> limited T t -> is_finite (held T) = true /\ B2R (held T) = t /\ 1 <= t <= 20.
  Proof.
    intros NN L. destruct f1_value as [F1 V1]. destruct f20_value as [F2 V2]. unfold held. destruct L as [[F E]|[[-> E]|[-> E]]].
    - destruct (Bltb f1 T) eqn:A, (Bltb T f20) eqn:C; cbn [andb]; unfold clip64;
        try (apply ltb_val in A; [|assumption..]); try (apply ltb_val_f in A; [|assumption..]); try (apply ltb_val in C; [|assumption..]); try (apply ltb_val_f in C; [|assumption..]); rewrite ?V1, ?V2 in A, C.
      + assert (t = B2R T) by (rewrite E, Rmax_left, Rmin_left by lra; reflexivity). split; [exact F|]. split; [now symmetry|lra].
      + assert (Bltb T f1 = false) as -> by (apply ltb_val_f; [assumption..|rewrite V1; lra]). assert (Hr0 : t = 20) by (rewrite E, Rmax_left, Rmin_right by lra; reflexivity).
        destruct (Bltb f20 T) eqn:G; [split; [exact F2|]; split; [lra|lra]|]. apply ltb_val_f in G; [|assumption..]. split; [exact F|]. rewrite V2 in G. split; lra.
      + destruct (Bltb T f1) eqn:G.
        * assert (Bltb f20 f1 = false) as -> by (apply ltb_val_f; [assumption..|lra]). split; [exact F1|]. rewrite V1, E. rewrite Rmax_right, Rmin_left by lra. lra.
        * apply ltb_val_f in G; [|assumption..]. assert (Bltb f20 T = false) as -> by (apply ltb_val_f; [assumption..|lra]). split; [exact F|]. rewrite E, Rmax_left, Rmin_left by lra. lra.
      + exfalso. lra.
    - change (Bltb f1 (B754_infinity false) && Bltb (B754_infinity false) f20) with false. change (clip64 f1 f20 (B754_infinity false)) with f20. subst t. split; [exact F2|]. split; [exact V2|lra].
    - change (Bltb f1 (B754_infinity true) && Bltb (B754_infinity true) f20) with false. change (clip64 f1 f20 (B754_infinity true)) with f1. subst t. split; [exact F1|]. split; [exact V1|lra].
  Qed.
  Lemma call_ok T t : is_nan T = false -> limited T t -> tt_call64 d T = Ok (tt_energy64 d, map (fun e => grid_value64 d e (held T)) (tt_energy64 d)).
  Proof.
    intros NN L. destruct (held_ok T t NN L) as (F & V & B). unfold tt_call64. fold f20. fold (held T).
    assert (I1 : forallb (inside64 (tt_energy64 d)) (tt_energy64 d) = true).
    { rewrite energy_seq. apply forallb_forall. intros e He. apply in_map_iff in He. destruct He as (i & <- & Hi). apply in_seq in Hi.
      assert (Hd : hd f0 (map ee64 (seq 0 500)) = ee64 0) by reflexivity.
      assert (La : last (map ee64 (seq 0 500)) f0 = ee64 499).
      { change 500%nat with (499 + 1)%nat at 1. rewrite seq_app, map_app. cbn [seq map]. rewrite last_last. reflexivity. }
      unfold inside64. rewrite Hd, La. apply andb_true_intro. destruct (ee_ok 0 ltac:(lia)) as [G0 _]. destruct (ee_ok 499 ltac:(lia)) as [G9 _]. destruct (ee_ok i ltac:(lia)) as [Gi _]. split; apply leb_val; try assumption.
      - destruct (Nat.eq_dec i 0) as [-> |N]; [lra|left; apply ee_increasing; lia].
      - destruct (Nat.eq_dec i 499) as [-> |N]; [lra|left; apply ee_increasing; lia]. }
    assert (I2 : inside64 (tt_temps64 d) (held T) = true).
    { change (tt_temps64 d) with (map t64 (seq 0 40)). unfold inside64. change (hd f0 (map t64 (seq 0 40))) with (t64 0). change (last (map t64 (seq 0 40)) f0) with f20. destruct f20_value as [F2 V2].
      apply andb_true_intro. split; apply leb_val; try assumption; try (apply t64_near; lia); [rewrite t64_first|]; lra. }
    rewrite I1, I2. reflexivity.
  Qed.
End Table.
