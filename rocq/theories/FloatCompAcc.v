(** Accuracy of the binary64 fuel fractions. *)
From Coq Require Import ZArith Bool Reals Lra Lia.
From Flocq Require Import Core.Core Plus_error Mult_error Sterbenz Relative IEEE754.BinarySingleNaN.
From Verif Require Import Base FloatComp FloatCompProofs.
Open Scope R_scope.
Local Instance p53' : Prec_gt_0 53 := eq_refl.

(** the unit roundoff *)
Definition uu : R := bpow radix2 (-53).
Lemma uu_val : uu = / IZR (2 ^ 53). Proof. reflexivity. Qed.
Lemma uu_small : 0 < uu <= / 1024.
Proof.
  split; [apply bpow_gt_0|]. unfold uu. replace (/ 1024) with (bpow radix2 (-10)) by reflexivity. apply bpow_le. lia.
Qed.
Lemma u_ro_uu : u_ro radix2 53 = uu.
Proof. unfold u_ro, uu. replace (/ 2) with (bpow radix2 (-1)) by reflexivity. rewrite <- bpow_plus. reflexivity. Qed.
(** relative error of one addition of any two floats *)
Lemma add_rel x y : fmt x -> fmt y -> Rabs (rnd (x + y) - (x + y)) <= uu * Rabs (x + y).
Proof.
  intros Fx Fy. destruct (FLT_plus_error_N_ex radix2 (-1074) 53 (fun z => negb (Z.even z)) x y Fx Fy) as (eps & He & E).
  rewrite E. replace ((x + y) * (1 + eps) - (x + y)) with (eps * (x + y)) by ring. rewrite Rabs_mult.
  apply Rmult_le_compat_r; [apply Rabs_pos|]. rewrite <- u_ro_uu. eapply Rle_trans; [exact He|]. apply u_rod1pu_ro_le_u_ro.
Qed.

Definition total (a b c : f64) : R := B2R a + B2R b + B2R c.
Lemma sum_plain_acc a b c : fin_nn a -> fin_nn b -> fin_nn c -> is_finite (sum_plain a b c) = true ->
  Rabs (B2R (sum_plain a b c) - total a b c) <= 4 * uu * total a b c.
Proof.
  intros Ha Hb Hc F. unfold sum_plain in *. destruct (fadd_0_l a Ha) as [Ha' Ea]. pose proof uu_small as U.
  destruct (fadd_nn _ b Ha' Hb) as [(E1 & F1 & P1 & L1 & L2)|E1].
  2:{ rewrite E1 in F. rewrite fadd_inf_l in F by (apply fin_not, Hc). discriminate. }
  destruct (fadd_nn _ c (conj F1 P1) Hc) as [(E2 & F2 & P2 & L3 & L4)|E2]; [|rewrite E2 in F; discriminate].
  set (t1 := fadd (fadd f0 a) b) in *. set (t2 := fadd t1 c) in *. unfold total. rewrite Ea in *.
  pose proof (proj2 Ha). pose proof (proj2 Hb). pose proof (proj2 Hc).
  pose proof (add_rel (B2R a) (B2R b) (B2R_fmt _) (B2R_fmt _)) as K1. rewrite <- E1 in K1.
  pose proof (add_rel (B2R t1) (B2R c) (B2R_fmt _) (B2R_fmt _)) as K2. rewrite <- E2 in K2.
  rewrite (Rabs_pos_eq (B2R a + B2R b)) in K1 by lra. rewrite (Rabs_pos_eq (B2R t1 + B2R c)) in K2 by lra.
  apply Rabs_le_inv in K1, K2. apply Rabs_le. nra.
Qed.
Lemma sum_comp_acc a b c : fin_nn a -> fin_nn b -> fin_nn c -> is_finite (sum_compensated a b c) = true ->
  Rabs (B2R (sum_compensated a b c) - total a b c) <= 4 * uu * total a b c.
Proof.
  intros Ha Hb Hc. unfold sum_compensated, comp_step. destruct (fadd_0_l a Ha) as [Ha' Ea]. pose proof uu_small as U.
  set (a' := fadd f0 a) in *. set (t1 := fadd a' b).
  destruct (fin_or_inf a' b Ha' Hb) as [F1|E1]; [change (is_finite t1 = true) in F1|change (t1 = B754_infinity false) in E1].
  2:{ rewrite E1. rewrite (inf_add_fin c (proj1 Hc)). rewrite final_inf. discriminate. }
  destruct (fadd_nn a' b Ha' Hb) as [(R1 & _ & P1 & L1 & L2)|E1]; [fold t1 in R1, P1, L1, L2|fold t1 in E1; rewrite E1 in F1; discriminate].
  set (t2 := fadd t1 c).
  destruct (fin_or_inf t1 c (conj F1 P1) Hc) as [F2|E2]; [fold t2 in F2|fold t2 in E2; rewrite E2, final_inf; discriminate].
  destruct (fadd_nn t1 c (conj F1 P1) Hc) as [(R2 & _ & P2 & L3 & L4)|E2]; [fold t2 in R2, P2, L3, L4|fold t2 in E2; rewrite E2 in F2; discriminate].
  pose proof (step_err a' b Ha' Hb F1) as S1. cbv zeta in S1. fold t1 in S1.
  pose proof (step_err t1 c (conj F1 P1) Hc F2) as S2. cbv zeta in S2. fold t2 in S2.
  set (e1 := if Bleb (Babs b) (Babs a') then fadd (fsub a' t1) b else fadd (fsub b t1) a') in *.
  set (e2 := if Bleb (Babs c) (Babs t1) then fadd (fsub t1 t2) c else fadd (fsub c t2) t1) in *.
  set (c1 := if Bleb (Babs b) (Babs a') then fadd f0 (fadd (fsub a' t1) b) else fadd f0 (fadd (fsub b t1) a')).
  assert (Ec1 : c1 = fadd f0 e1) by (unfold c1, e1; destruct (Bleb (Babs b) (Babs a')); reflexivity).
  set (c2 := if Bleb (Babs c) (Babs t1) then fadd c1 (fadd (fsub t1 t2) c) else fadd c1 (fadd (fsub c t2) t1)).
  assert (Ec2 : c2 = fadd c1 e2) by (unfold c2, e2; destruct (Bleb (Babs c) (Babs t1)); reflexivity).
  destruct S1 as [V1 G1], S2 as [V2 G2].
  pose proof (add_rel (B2R a') (B2R b) (B2R_fmt _) (B2R_fmt _)) as K1. rewrite <- R1 in K1.
  pose proof (add_rel (B2R t1) (B2R c) (B2R_fmt _) (B2R_fmt _)) as K2. rewrite <- R2 in K2.
  pose proof (proj2 Ha') as Pa'. pose proof (proj2 Hb) as Pb. pose proof (proj2 Hc) as Pc.
  rewrite (Rabs_pos_eq (B2R a' + B2R b)) in K1 by lra. rewrite (Rabs_pos_eq (B2R t1 + B2R c)) in K2 by lra.
  apply Rabs_le_inv in K1, K2.
  assert (C1 : B2R c1 = B2R e1 /\ is_finite c1 = true).
  { rewrite Ec1. destruct (fadd_cases f0 e1 eq_refl G1) as [(L & E & F)|(L & _)];
    change (B2R f0) with 0 in *; rewrite Rplus_0_l, (rnd_id _ (B2R_fmt e1)) in *; [auto|].
    exfalso. pose proof (abs_B2R_lt_emax 53 1024 e1). lra. }
  destruct C1 as [C1 C1f].
  unfold total. rewrite <- Ea. set (S := B2R a' + B2R b + B2R c).
  assert (HS : 0 <= S) by (unfold S; lra).
  assert (ES : S = B2R t2 + (B2R e1 + B2R e2)) by (unfold S; lra).
  assert (Be1 : Rabs (B2R e1) <= uu * S) by (apply Rabs_le; unfold S; nra).
  assert (Be2 : Rabs (B2R e2) <= 2 * uu * S) by (apply Rabs_le; unfold S; nra).
  assert (Be : Rabs (B2R e1 + B2R e2) <= 3 * uu * S) by (eapply Rle_trans; [apply Rabs_triang|]; lra).
  assert (Bt2 : Rabs (B2R e1 + B2R e2) <= B2R t2).
  { eapply Rle_trans; [exact Be|]. apply Rabs_le_inv in Be. nra. }
  assert (C2 : B2R c2 = rnd (B2R e1 + B2R e2) /\ is_finite c2 = true).
  { rewrite Ec2. destruct (fadd_cases c1 e2 C1f G2) as [(L & E & F)|(L & _)]; rewrite C1 in *; [auto|].
    exfalso. pose proof (small_bound _ t2 Bt2 F2). lra. }
  destruct C2 as [C2 C2f].
  pose proof (add_rel (B2R e1) (B2R e2) (B2R_fmt _) (B2R_fmt _)) as K3. rewrite <- C2 in K3.
  pose proof (Rabs_pos (B2R e1 + B2R e2)) as A0.
  cbv zeta. destruct (negb (Beqb c2 f0) && is_finite c2) eqn:B; intro F.
  - destruct (fadd_cases t2 c2 F2 C2f) as [(L & E & F')|(L & E & Sg)]; [|rewrite E in F; discriminate].
    pose proof (add_rel (B2R t2) (B2R c2) (B2R_fmt _) (B2R_fmt _)) as K4. rewrite <- E in K4.
    assert (D : Rabs (B2R t2 + B2R c2 - S) <= uu * (3 * uu * S)).
    { rewrite ES at 1. replace (B2R t2 + B2R c2 - (B2R t2 + (B2R e1 + B2R e2))) with (B2R c2 - (B2R e1 + B2R e2)) by ring.
      eapply Rle_trans; [exact K3|]. apply Rmult_le_compat_l; lra. }
    assert (D' : uu * (3 * uu * S) <= uu * S) by nra.
    assert (A : Rabs (B2R t2 + B2R c2) <= 2 * S).
    { apply Rabs_le_inv in D. apply Rabs_le. nra. }
    replace (B2R (fadd t2 c2) - S) with ((B2R (fadd t2 c2) - (B2R t2 + B2R c2)) + (B2R t2 + B2R c2 - S)) by ring.
    eapply Rle_trans; [apply Rabs_triang|]. assert (uu * Rabs (B2R t2 + B2R c2) <= uu * (2 * S)) by (apply Rmult_le_compat_l; lra). lra.
  - rewrite C2f, andb_true_r in B. apply negb_false_iff in B. rewrite Beqb_correct in B by (exact C2f || reflexivity).
    assert (Z : B2R c2 = 0). { destruct (Req_bool_spec (B2R c2) (B2R f0)) as [h|h]; [|discriminate]. exact h. }
    rewrite Z in K3. rewrite Rminus_0_l, Rabs_Ropp in K3. assert (Z' : Rabs (B2R e1 + B2R e2) = 0) by nra.
    replace (B2R t2 - S) with (- (B2R e1 + B2R e2)) by lra. rewrite Rabs_Ropp, Z'. apply Rmult_le_pos; lra.
Qed.
Lemma py_sum_acc v a b c : fin_nn a -> fin_nn b -> fin_nn c -> is_finite (py_sum v a b c) = true ->
  Rabs (B2R (py_sum v a b c) - total a b c) <= 4 * uu * total a b c.
Proof. destruct v; [apply sum_comp_acc|apply sum_plain_acc]. Qed.

(** no overflow below 2^1022 *)
Lemma fadd_fin x y : fin_nn x -> fin_nn y -> B2R x + B2R y <= bpow radix2 1023 -> is_finite (fadd x y) = true.
Proof.
  intros Hx Hy L. destruct (fadd_cases x y (proj1 Hx) (proj1 Hy)) as [(_ & _ & F)|(L' & _)]; [exact F|]. exfalso.
  assert (0 <= B2R x + B2R y) by (pose proof (proj2 Hx); pose proof (proj2 Hy); lra).
  assert (R0 : 0 <= rnd (B2R x + B2R y)) by (rewrite <- rnd_0; apply rnd_mono; lra). rewrite Rabs_pos_eq in L' by exact R0.
  assert (rnd (B2R x + B2R y) <= bpow radix2 1023).
  { rewrite <- (rnd_id (bpow radix2 1023)); [now apply rnd_mono|]. apply generic_format_bpow. unfold FLT_exp. lia. }
  assert (bpow radix2 1023 < bpow radix2 1024) by (apply bpow_lt; lia). lra.
Qed.
Lemma double_bpow : 2 * bpow radix2 1022 = bpow radix2 1023.
Proof. replace 2 with (bpow radix2 1) by reflexivity. rewrite <- bpow_plus. reflexivity. Qed.
Lemma py_sum_fin v a b c : fin_nn a -> fin_nn b -> fin_nn c -> total a b c <= bpow radix2 1022 -> is_finite (py_sum v a b c) = true.
Proof.
  intros Ha Hb Hc L. unfold total in L. pose proof (proj2 Ha) as Pa. pose proof (proj2 Hb) as Pb. pose proof (proj2 Hc) as Pc. pose proof double_bpow as DB. pose proof uu_small as U.
  destruct (fadd_0_l a Ha) as [Ha' Ea].
  assert (F1 : is_finite (fadd (fadd f0 a) b) = true) by (apply fadd_fin; auto; lra).
  destruct (fadd_nn _ b Ha' Hb) as [(E1 & _ & P1 & _)|E1]; [|rewrite E1 in F1; discriminate].
  pose proof (add_rel (B2R a) (B2R b) (B2R_fmt _) (B2R_fmt _)) as K1. rewrite (Rabs_pos_eq (B2R a + B2R b)) in K1 by lra. rewrite Ea in E1. rewrite <- E1 in K1. apply Rabs_le_inv in K1.
  assert (F2 : is_finite (fadd (fadd (fadd f0 a) b) c) = true) by (apply fadd_fin; auto; [now split|nra]).
  destruct v; [|exact F2]. cbn [py_sum].
  destruct (py_sum_dom true a b c Ha Hb Hc) as [I|[[F _] _]]; [|exact F]. exfalso. cbn [py_sum] in I.
  (* the compensated sum overflows only if its plain partial sum does, or the last addition does *)
  revert I. unfold sum_compensated, comp_step. set (a' := fadd f0 a) in *. set (t1 := fadd a' b) in *. set (t2 := fadd t1 c) in *. cbv zeta.
  destruct (fadd_nn t1 c (conj F1 P1) Hc) as [(R2 & _ & P2 & L3 & L4)|E2]; [fold t2 in R2, P2, L3, L4|fold t2 in E2; rewrite E2 in F2; discriminate].
  pose proof (step_err a' b Ha' Hb F1) as S1. cbv zeta in S1. fold t1 in S1.
  pose proof (step_err t1 c (conj F1 P1) Hc F2) as S2. cbv zeta in S2. fold t2 in S2.
  set (e1 := if Bleb (Babs b) (Babs a') then fadd (fsub a' t1) b else fadd (fsub b t1) a') in *.
  set (e2 := if Bleb (Babs c) (Babs t1) then fadd (fsub t1 t2) c else fadd (fsub c t2) t1) in *.
  set (c1 := if Bleb (Babs b) (Babs a') then fadd f0 (fadd (fsub a' t1) b) else fadd f0 (fadd (fsub b t1) a')).
  assert (Ec1 : c1 = fadd f0 e1) by (unfold c1, e1; destruct (Bleb (Babs b) (Babs a')); reflexivity).
  set (c2 := if Bleb (Babs c) (Babs t1) then fadd c1 (fadd (fsub t1 t2) c) else fadd c1 (fadd (fsub c t2) t1)).
  assert (Ec2 : c2 = fadd c1 e2) by (unfold c2, e2; destruct (Bleb (Babs c) (Babs t1)); reflexivity).
  destruct S1 as [V1 G1], S2 as [V2 G2]. rewrite Ea in V1.
  pose proof (add_rel (B2R t1) (B2R c) (B2R_fmt _) (B2R_fmt _)) as K2. rewrite <- R2 in K2. rewrite (Rabs_pos_eq (B2R t1 + B2R c)) in K2 by lra. apply Rabs_le_inv in K2.
  set (S := B2R a + B2R b + B2R c) in *. assert (HS : 0 <= S) by (unfold S; lra).
  assert (Be1 : Rabs (B2R e1) <= uu * S) by (apply Rabs_le; unfold S; nra).
  assert (Be2 : Rabs (B2R e2) <= 2 * uu * S) by (apply Rabs_le; unfold S; nra).
  assert (Be : Rabs (B2R e1 + B2R e2) <= 3 * uu * S) by (eapply Rle_trans; [apply Rabs_triang|]; lra).
  assert (ES : S = B2R t2 + (B2R e1 + B2R e2)) by (unfold S; lra).
  assert (C1 : B2R c1 = B2R e1 /\ is_finite c1 = true).
  { rewrite Ec1. destruct (fadd_cases f0 e1 eq_refl G1) as [(L' & E & F)|(L' & _)];
    change (B2R f0) with 0 in *; rewrite Rplus_0_l, (rnd_id _ (B2R_fmt e1)) in *; [auto|].
    exfalso. pose proof (abs_B2R_lt_emax 53 1024 e1). lra. }
  destruct C1 as [C1 C1f].
  assert (Bt2 : Rabs (B2R e1 + B2R e2) <= B2R t2) by (eapply Rle_trans; [exact Be|]; apply Rabs_le_inv in Be; nra).
  assert (C2 : B2R c2 = rnd (B2R e1 + B2R e2) /\ is_finite c2 = true).
  { rewrite Ec2. destruct (fadd_cases c1 e2 C1f G2) as [(L' & E & F)|(L' & _)]; rewrite C1 in *; [auto|].
    exfalso. pose proof (small_bound _ t2 Bt2 F2). lra. }
  destruct C2 as [C2 C2f].
  pose proof (add_rel (B2R e1) (B2R e2) (B2R_fmt _) (B2R_fmt _)) as K3. rewrite <- C2 in K3.
  assert (D : Rabs (B2R t2 + B2R c2 - S) <= uu * S).
  { rewrite ES at 1. replace (B2R t2 + B2R c2 - (B2R t2 + (B2R e1 + B2R e2))) with (B2R c2 - (B2R e1 + B2R e2)) by ring.
    eapply Rle_trans; [exact K3|]. apply Rmult_le_compat_l; [lra|]. apply Rabs_le_inv in Be. eapply Rle_trans; [apply Rabs_le; exact Be|]. nra. }
  apply Rabs_le_inv in D.
  destruct (negb (Beqb c2 f0) && is_finite c2); [|intro I; rewrite I in F2; discriminate].
  intro I. destruct (fadd_cases t2 c2 F2 C2f) as [(_ & _ & F)|(L' & _)]; [rewrite I in F; discriminate|].
  assert (X : 0 <= B2R t2 + B2R c2 <= bpow radix2 1023) by nra.
  assert (R0 : 0 <= rnd (B2R t2 + B2R c2)) by (rewrite <- rnd_0; apply rnd_mono; lra). rewrite Rabs_pos_eq in L' by exact R0.
  assert (rnd (B2R t2 + B2R c2) <= bpow radix2 1023).
  { rewrite <- (rnd_id (bpow radix2 1023)); [apply rnd_mono; lra|]. apply generic_format_bpow. unfold FLT_exp. lia. }
  assert (bpow radix2 1023 < bpow radix2 1024) by (apply bpow_lt; lia). lra.
Qed.

(** rounding of a number in [0, 2] *)
Lemma rnd_small q : 0 <= q <= 2 -> Rabs (rnd q - q) <= 2 * uu.
Proof.
  intro H. eapply Rle_trans; [apply error_le_half_ulp; typeclasses eauto|].
  assert (U2 : ulp radix2 fx q <= ulp radix2 fx 2) by (apply ulp_le; try typeclasses eauto; rewrite !Rabs_pos_eq; lra).
  assert (V : ulp radix2 fx 2 = bpow radix2 (-51)).
  { replace 2 with (bpow radix2 1) by reflexivity. rewrite ulp_bpow. reflexivity. }
  rewrite V in U2. assert (W : bpow radix2 (-51) = 4 * uu).
  { unfold uu. replace 4 with (bpow radix2 2) by reflexivity. rewrite <- bpow_plus. reflexivity. }
  rewrite W in U2. lra.
Qed.
Lemma fdiv_val x s : fin_nn x -> fin_nn s -> B2R x <= B2R s -> 0 < B2R s -> B2R (fdiv x s) = rnd (B2R x / B2R s).
Proof.
  intros [Fx Px] [Fs Ps] Hx Hs. assert (Q : 0 <= B2R x / B2R s <= 1).
  { split; [apply Rmult_le_pos; [exact Px|left; apply Rinv_0_lt_compat; lra]|].
    apply Rmult_le_reg_r with (B2R s); [lra|]. unfold Rdiv; rewrite Rmult_assoc, Rinv_l; lra. }
  assert (Q' : 0 <= rnd (B2R x / B2R s) <= 1).
  { split; [rewrite <- rnd_0|rewrite <- (rnd_id 1 fmt_1)]; apply rnd_mono; lra. }
  assert (Hne : B2R s <> 0) by lra. pose proof (Bdiv_correct 53 1024 Hprec64 Hmax64 mode_NE x s Hne) as H.
  rewrite fexp64 in H. change (round_mode mode_NE) with ZnearestE in H. rewrite Rlt_bool_true in H; [exact (proj1 H)|].
  rewrite Rabs_pos_eq by lra. apply Rle_lt_trans with (bpow radix2 0); [cbn; lra|]. apply bpow_lt; lia.
Qed.
Lemma ratio_acc x s S : 0 <= x <= S -> x <= s -> 0 < s -> 0 < S -> Rabs (s - S) <= 4 * uu * S -> Rabs (x / s - x / S) <= 5 * uu.
Proof.
  intros Hx Hxs Hs HS E. pose proof uu_small as U. replace (x / s - x / S) with (x / S * ((S - s) / s)) by (field; lra).
  assert (A : 0 <= x / S <= 1).
  { split; [apply Rmult_le_pos; [lra|left; apply Rinv_0_lt_compat; lra]|]. apply Rmult_le_reg_r with S; [lra|]. unfold Rdiv; rewrite Rmult_assoc, Rinv_l; lra. }
  assert (B : Rabs ((S - s) / s) <= 5 * uu).
  { unfold Rdiv. rewrite Rabs_mult, (Rabs_pos_eq (/ s)) by (left; apply Rinv_0_lt_compat; lra).
    apply Rmult_le_reg_r with s; [lra|]. rewrite Rmult_assoc, Rinv_l, Rmult_1_r by lra.
    replace (S - s) with (- (s - S)) by ring. rewrite Rabs_Ropp. eapply Rle_trans; [exact E|]. apply Rabs_le_inv in E. nra. }
  rewrite Rabs_mult, (Rabs_pos_eq (x / S)) by lra. pose proof (Rabs_pos ((S - s) / s)). nra.
Qed.

(** Each stored fraction is the exact one up to 2^-50. *)
Lemma fuel64_accuracy v D T H D' T' H' w : fin_nn D -> fin_nn T -> fin_nn H -> 0 < total D T H <= bpow radix2 1022 ->
  fuel_composition64 v D T H = Ok ((D', T', H'), w) ->
  Rabs (B2R D' - B2R D / total D T H) <= bpow radix2 (-50) /\
  Rabs (B2R T' - B2R T / total D T H) <= bpow radix2 (-50) /\
  Rabs (B2R H' - B2R H / total D T H) <= bpow radix2 (-50).
Proof.
  intros HD HT HH [P L] E.
  assert (Fs : is_finite (py_sum v D T H) = true) by (apply py_sum_fin; auto).
  pose proof (py_sum_acc v D T H HD HT HH Fs) as A. pose proof (py_sum_dom v D T H HD HT HH) as Dm.
  unfold fuel_composition64 in E. set (s := py_sum v D T H) in *. pose proof uu_small as U.
  assert (EB : bpow radix2 (-50) = 8 * uu).
  { unfold uu. replace 8 with (bpow radix2 3) by reflexivity. rewrite <- bpow_plus. reflexivity. }
  rewrite EB. destruct Dm as [Di|[Nn Dm]]; [rewrite Di in Fs; discriminate|].
  assert (Ps : 0 < B2R s) by (apply Rabs_le_inv in A; nra).
  assert (LD : B2R D <= B2R s) by (apply Dm; cbn; auto). assert (LT : B2R T <= B2R s) by (apply Dm; cbn; auto). assert (LH : B2R H <= B2R s) by (apply Dm; cbn; auto).
  pose proof (proj2 HD) as PD. pose proof (proj2 HT) as PT. pose proof (proj2 HH) as PH.
  assert (R3 : forall x, 0 <= x <= total D T H -> x <= B2R s -> Rabs (x / B2R s - x / total D T H) <= 5 * uu).
  { intros x Hx Hxs. apply ratio_acc; auto. }
  unfold total in *. destruct (Beqb s f1) eqn:E1; cbn [negb] in E.
  - injection E as <- <- <- _. rewrite Beqb_correct in E1 by (exact Fs || reflexivity).
    assert (S1 : B2R s = 1). { destruct (Req_bool_spec (B2R s) (B2R f1)) as [h|h]; [|discriminate]. rewrite h. apply Bone_correct. }
    rewrite S1 in *. assert (Q : forall x, x = x / 1) by (intro; field).
    repeat split; [rewrite (Q (B2R D)) at 1|rewrite (Q (B2R T)) at 1|rewrite (Q (B2R H)) at 1]; (eapply Rle_trans; [apply R3; lra|lra]).
  - destruct (Beqb s f0) eqn:E0; [discriminate|]. injection E as <- <- <- _.
    assert (K : forall x : f64, fin_nn x -> B2R x <= B2R s -> B2R x <= B2R D + B2R T + B2R H -> Rabs (B2R (fdiv x s) - B2R x / (B2R D + B2R T + B2R H)) <= 8 * uu).
    { intros x Hx L1 L2. pose proof (proj2 Hx) as Px. rewrite (fdiv_val x s Hx Nn L1 Ps).
      assert (Q : 0 <= B2R x / B2R s <= 2).
      { split; [apply Rmult_le_pos; [lra|left; apply Rinv_0_lt_compat; lra]|]. apply Rmult_le_reg_r with (B2R s); [lra|]. unfold Rdiv; rewrite Rmult_assoc, Rinv_l; lra. }
      pose proof (rnd_small _ Q) as Rn. pose proof (R3 (B2R x) ltac:(lra) L1) as Rt.
      replace (rnd (B2R x / B2R s) - B2R x / (B2R D + B2R T + B2R H)) with ((rnd (B2R x / B2R s) - B2R x / B2R s) + (B2R x / B2R s - B2R x / (B2R D + B2R T + B2R H))) by ring.
      eapply Rle_trans; [apply Rabs_triang|]. lra. }
    repeat split; apply K; auto; lra.
Qed.

(** The same statement with plain powers. *)
Lemma bpow2_nat (n : nat) : bpow radix2 (Z.of_nat n) = 2 ^ n.
Proof.
  induction n; [reflexivity|]. rewrite Nat2Z.inj_succ. unfold Z.succ. rewrite bpow_plus, IHn. cbn [pow].
  replace (bpow radix2 1) with 2 by reflexivity. ring.
Qed.
Lemma fuel64_accuracy_pow v D T H D' T' H' w : fin_nn D -> fin_nn T -> fin_nn H ->
  0 < total D T H <= 2 ^ 1022 -> fuel_composition64 v D T H = Ok ((D', T', H'), w) ->
  Rabs (B2R D' - B2R D / total D T H) <= / 2 ^ 50 /\
  Rabs (B2R T' - B2R T / total D T H) <= / 2 ^ 50 /\
  Rabs (B2R H' - B2R H / total D T H) <= / 2 ^ 50.
Proof.
  intros FD FT FH P E.
  rewrite <- (bpow2_nat 1022) in P. change (Z.of_nat 1022) with 1022%Z in P.
  rewrite <- (bpow2_nat 50). change (Z.of_nat 50) with 50%Z.
  rewrite <- (bpow_opp radix2 50).
  exact (fuel64_accuracy v D T H D' T' H' w FD FT FH P E).
Qed.
