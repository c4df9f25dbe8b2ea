(** Lemmas for C83. *)
From Coq Require Import ZArith Bool Reals Lra Lia List Permutation.
From Flocq Require Import Core.Core Plus_error Mult_error Relative IEEE754.BinarySingleNaN.
From Verif Require Import Base FloatComp FloatCompProofs FloatCompAcc FloatSource SpecFloatSource.
Open Scope R_scope.
Local Instance p53s : Prec_gt_0 53 := eq_refl.

(** One rounding at most multiplies or divides by ww. *)
Definition ww : R := / (1 - uu).
Lemma ww_1 : 1 <= ww.
Proof. pose proof uu_small. unfold ww. rewrite <- Rinv_1 at 1. apply Rinv_le_contravar; lra. Qed.
Lemma ww_u : 1 + uu <= ww.
Proof. pose proof uu_small. unfold ww. apply (Rmult_le_reg_r (1 - uu)); [lra|]. rewrite Rinv_l by lra. nra. Qed.
Lemma ww_inv : / ww = 1 - uu.
Proof. unfold ww. apply Rinv_inv. Qed.
Definition wp (n : nat) : R := ww ^ n.
Lemma wp_1 n : 1 <= wp n.
Proof. apply pow_R1_Rle, ww_1. Qed.
Lemma wp_pos n : 0 < wp n.
Proof. pose proof (wp_1 n). lra. Qed.
Lemma wp_add n m : wp (n + m) = wp n * wp m.
Proof. apply pow_add. Qed.
Lemma wp_le n m : (n <= m)%nat -> wp n <= wp m.
Proof. intro. apply Rle_pow; [apply ww_1|assumption]. Qed.
Lemma wp_one : wp 1 = ww.
Proof. unfold wp. ring. Qed.

(** [close n x y]: non-negative numbers whose quotient is within n roundings of 1. *)
Definition close (n : nat) (x y : R) : Prop := 0 <= x /\ 0 <= y /\ x <= y * wp n /\ y <= x * wp n.
Lemma close_refl x : 0 <= x -> close 0 x x.
Proof. intro. unfold close, wp. cbn. lra. Qed.
Lemma close_sym n x y : close n x y -> close n y x.
Proof. unfold close. tauto. Qed.
Lemma close_weaken n m x y : (n <= m)%nat -> close n x y -> close m x y.
Proof.
  intros L (H1 & H2 & H3 & H4). pose proof (wp_le n m L). unfold close.
  assert (y * wp n <= y * wp m) by now apply Rmult_le_compat_l. assert (x * wp n <= x * wp m) by now apply Rmult_le_compat_l. lra.
Qed.
Lemma close_trans n m x y z : close n x y -> close m y z -> close (n + m) x z.
Proof.
  intros (A1 & A2 & A3 & A4) (B1 & B2 & B3 & B4). unfold close. rewrite wp_add. pose proof (wp_pos n). pose proof (wp_pos m). repeat split; try assumption.
  - apply Rle_trans with (1 := A3). replace (z * (wp n * wp m)) with ((z * wp m) * wp n) by ring. apply Rmult_le_compat_r; lra.
  - apply Rle_trans with (1 := B4). replace (x * (wp n * wp m)) with ((x * wp n) * wp m) by ring. apply Rmult_le_compat_r; lra.
Qed.
Lemma close_mult n m x y a b : close n x y -> close m a b -> close (n + m) (x * a) (y * b).
Proof.
  intros (A1 & A2 & A3 & A4) (B1 & B2 & B3 & B4). unfold close. rewrite wp_add. pose proof (wp_pos n). pose proof (wp_pos m).
  repeat split; try (apply Rmult_le_pos; assumption).
  - replace (y * b * (wp n * wp m)) with ((y * wp n) * (b * wp m)) by ring. apply Rmult_le_compat; assumption.
  - replace (x * a * (wp n * wp m)) with ((x * wp n) * (a * wp m)) by ring. apply Rmult_le_compat; assumption.
Qed.
Lemma close_pos n x y : close n x y -> 0 < y -> 0 < x.
Proof. intros (A1 & A2 & A3 & A4) H. destruct A1 as [|<-]; [assumption|]. lra. Qed.
Lemma close_inv n x y : close n x y -> 0 < y -> close n (/ x) (/ y).
Proof.
  intros C H. pose proof (close_pos _ _ _ C H) as Hx. destruct C as (A1 & A2 & A3 & A4). unfold close. pose proof (wp_pos n).
  repeat split; try (left; now apply Rinv_0_lt_compat).
  - apply (Rmult_le_reg_r (x * y)); [now apply Rmult_lt_0_compat|]. replace (/ x * (x * y)) with y by (field; lra). replace (/ y * wp n * (x * y)) with (x * wp n) by (field; lra). exact A4.
  - apply (Rmult_le_reg_r (x * y)); [now apply Rmult_lt_0_compat|]. replace (/ x * wp n * (x * y)) with (y * wp n) by (field; lra). replace (/ y * (x * y)) with x by (field; lra). exact A3.
Qed.
Lemma close_div n m x y a b : close n x y -> close m a b -> 0 < b -> close (n + m) (x / a) (y / b).
Proof. intros C D H. unfold Rdiv. apply close_mult; [exact C|now apply close_inv]. Qed.
Lemma close_plus n x y a b : close n x y -> close n a b -> close n (x + a) (y + b).
Proof. intros (A1 & A2 & A3 & A4) (B1 & B2 & B3 & B4). unfold close. repeat split; lra. Qed.
Lemma close_mult_r n x y a : 0 <= a -> close n x y -> close n (x * a) (y * a).
Proof. intros Ha C. rewrite <- (Nat.add_0_r n). apply close_mult; [exact C|now apply close_refl]. Qed.

Lemma two_bpow e : two e = bpow radix2 e.
Proof. unfold two. rewrite bpow_powerRZ. reflexivity. Qed.

(** Rounding a non-negative number that is zero or not too small. *)
Definition normal (x : R) : Prop := x = 0 \/ bpow radix2 (-1022) <= x <= bpow radix2 1023.
Lemma rnd_close x : x = 0 \/ bpow radix2 (-1022) <= x -> close 1 (rnd x) x.
Proof.
  intros [->|H].
  - rewrite rnd_0. unfold close. pose proof (wp_pos 1). lra.
  - assert (P : 0 < x) by (pose proof (bpow_gt_0 radix2 (-1022)); lra).
    pose proof (relative_error_N_FLT radix2 (-1074) 53 eq_refl (fun z => negb (Z.even z)) x) as E. rewrite (Rabs_pos_eq x) in E by lra. specialize (E H).
    replace (/ 2 * bpow radix2 (- (53) + 1)) with uu in E by (rewrite <- u_ro_uu; reflexivity). apply Rabs_le_inv in E. change (round radix2 (FLT_exp (-1074) 53) (Znearest (fun z => negb (Z.even z))) x) with (rnd x) in E. pose proof uu_small as U. pose proof ww_u as W. pose proof ww_inv as I.
    assert (W0 : 0 < ww) by (pose proof ww_1; lra).
    assert (X1 : 0 <= uu * x <= x * / 1024) by (split; [apply Rmult_le_pos; lra|rewrite Rmult_comm; apply Rmult_le_compat_l; lra]).
    assert (X2 : x * (1 + uu) <= x * ww) by (apply Rmult_le_compat_l; lra).
    unfold close. rewrite wp_one. split; [lra|]. split; [lra|]. split; [lra|].
    apply (Rmult_le_reg_r (/ ww)); [now apply Rinv_0_lt_compat|]. rewrite Rmult_assoc, Rinv_r, Rmult_1_r by lra. rewrite I. lra.
Qed.
Lemma rnd_top x : 0 <= x <= bpow radix2 1023 -> Rabs (rnd x) < bpow radix2 1024.
Proof.
  intro H. assert (R0 : 0 <= rnd x) by (rewrite <- rnd_0; apply rnd_mono; lra). rewrite Rabs_pos_eq by exact R0.
  assert (rnd x <= bpow radix2 1023).
  { rewrite <- (rnd_id (bpow radix2 1023)); [apply rnd_mono; lra|]. apply generic_format_bpow. unfold FLT_exp. lia. }
  assert (bpow radix2 1023 < bpow radix2 1024) by (apply bpow_lt; lia). lra.
Qed.
Lemma normal_nonneg x : normal x -> 0 <= x.
Proof. intros [->|H]; [lra|]. pose proof (bpow_gt_0 radix2 (-1022)). lra. Qed.
Lemma normal_top x : normal x -> 0 <= x <= bpow radix2 1023.
Proof. intro H. split; [now apply normal_nonneg|]. destruct H as [->|H]; [left; apply bpow_gt_0|lra]. Qed.

Lemma fmul_close x y : fin_nn x -> fin_nn y -> normal (B2R x * B2R y) -> fin_nn (fmul x y) /\ close 1 (B2R (fmul x y)) (B2R x * B2R y).
Proof.
  intros [Fx Hx] [Fy Hy] N. pose proof (Bmult_correct 53 1024 Hprec64 Hmax64 mode_NE x y) as H. rewrite fexp64 in H. change (round_mode mode_NE) with ZnearestE in H.
  rewrite Rlt_bool_true in H by (apply rnd_top; now apply normal_top). destruct H as (E & F & _). rewrite Fx, Fy in F. fold (fmul x y) in E, F.
  assert (C : close 1 (B2R (fmul x y)) (B2R x * B2R y)) by (rewrite E; apply rnd_close; destruct N; tauto).
  split; [split; [exact F|apply C]|exact C].
Qed.
Lemma fdiv_close x y : fin_nn x -> fin_nn y -> 0 < B2R y -> normal (B2R x / B2R y) -> fin_nn (fdiv x y) /\ close 1 (B2R (fdiv x y)) (B2R x / B2R y).
Proof.
  intros [Fx Hx] [Fy Hy] P N. assert (N0 : B2R y <> 0) by lra. pose proof (Bdiv_correct 53 1024 Hprec64 Hmax64 mode_NE x y N0) as H. rewrite fexp64 in H. change (round_mode mode_NE) with ZnearestE in H.
  rewrite Rlt_bool_true in H by (apply rnd_top; now apply normal_top). destruct H as (E & F & _). rewrite Fx in F. fold (fdiv x y) in E, F.
  assert (C : close 1 (B2R (fdiv x y)) (B2R x / B2R y)) by (rewrite E; apply rnd_close; destruct N; tauto).
  split; [split; [exact F|apply C]|exact C].
Qed.
Lemma fadd_close x y : fin_nn x -> fin_nn y -> B2R x + B2R y <= bpow radix2 1023 -> fin_nn (fadd x y) /\ close 1 (B2R (fadd x y)) (B2R x + B2R y).
Proof.
  intros Hx Hy L. destruct (fadd_nn x y Hx Hy) as [(E & F & P & _)|E].
  2:{ pose proof (fadd_fin x y Hx Hy L) as F. rewrite E in F. discriminate. }
  split; [now split|]. pose proof (add_rel (B2R x) (B2R y) (B2R_fmt _) (B2R_fmt _)) as K. rewrite <- E in K. pose proof (proj2 Hx). pose proof (proj2 Hy).
  rewrite (Rabs_pos_eq (B2R x + B2R y)) in K by lra. apply Rabs_le_inv in K. pose proof uu_small as U. pose proof ww_u as W. pose proof ww_inv as I. assert (W0 : 0 < ww) by (pose proof ww_1; lra).
  set (x' := B2R x + B2R y) in *.
  assert (X0 : 0 <= x') by (unfold x'; lra).
  assert (X1 : 0 <= uu * x' <= x' * / 1024) by (split; [apply Rmult_le_pos; lra|rewrite Rmult_comm; apply Rmult_le_compat_l; lra]).
  assert (X2 : x' * (1 + uu) <= x' * ww) by (apply Rmult_le_compat_l; lra).
  unfold close. rewrite wp_one. split; [lra|]. split; [lra|]. split; [lra|].
  apply (Rmult_le_reg_r (/ ww)); [now apply Rinv_0_lt_compat|]. rewrite Rmult_assoc, Rinv_r, Rmult_1_r by lra. rewrite I. lra.
Qed.
(** Adding zero is exact. *)
Lemma fadd_zero_l x y : fin_nn x -> fin_nn y -> B2R x = 0 -> fin_nn (fadd x y) /\ B2R (fadd x y) = B2R y.
Proof.
  intros [Fx Hx] [Fy Hy] Z. destruct (fadd_cases x y Fx Fy) as [(L & E & F)|(L & E & S)]; rewrite Z, Rplus_0_l, (rnd_id _ (B2R_fmt y)) in *.
  - unfold fin_nn; rewrite E; auto.
  - exfalso. pose proof (abs_B2R_lt_emax 53 1024 y). lra.
Qed.
Lemma fadd_zero_r x y : fin_nn x -> fin_nn y -> B2R y = 0 -> fin_nn (fadd x y) /\ B2R (fadd x y) = B2R x.
Proof.
  intros [Fx Hx] [Fy Hy] Z. destruct (fadd_cases x y Fx Fy) as [(L & E & F)|(L & E & S)]; rewrite Z, Rplus_0_r, (rnd_id _ (B2R_fmt x)) in *.
  - unfold fin_nn; rewrite E; auto.
  - exfalso. pose proof (abs_B2R_lt_emax 53 1024 x). lra.
Qed.

(** Sums *)
Lemma exact_sum_app a b : exact_sum (a ++ b) = exact_sum a + exact_sum b.
Proof. induction a as [|x a IH]; [change (exact_sum []) with 0; cbn [app]; ring|]. change (exact_sum ((x :: a) ++ b)) with (B2R x + exact_sum (a ++ b)). change (exact_sum (x :: a)) with (B2R x + exact_sum a). rewrite IH. ring. Qed.
Lemma exact_sum_perm a b : Permutation a b -> exact_sum a = exact_sum b.
Proof.
  induction 1 as [|x a b _ IH|x y a|a b c _ IH1 _ IH2]; cbn [exact_sum fold_right].
  - reflexivity.
  - fold (exact_sum a) (exact_sum b). now rewrite IH.
  - fold (exact_sum a). ring.
  - now rewrite IH1.
Qed.
Lemma exact_sum_nonneg l : Forall fin_nn l -> 0 <= exact_sum l.
Proof. induction 1 as [|x l [_ H] _ IH]; cbn; [lra|]. fold (exact_sum l). lra. Qed.
Lemma sums_close l x : sums l x -> Forall fin_nn l -> exact_sum l * wp (length l) <= bpow radix2 1023 ->
  fin_nn x /\ close (length l) (B2R x) (exact_sum l) /\ (l = [] -> B2R x = 0).
Proof.
  induction 1 as [z F Z|x|l l1 l2 a b P S1 IH1 S2 IH2]; intros Fl L.
  - cbn. split; [split; [exact F|lra]|]. split; [|tauto]. rewrite Z. apply close_refl. lra.
  - inversion Fl; subst. cbn [exact_sum fold_right length] in *. split; [assumption|]. split; [|discriminate].
    apply (close_weaken 0); [lia|]. rewrite Rplus_0_r. apply close_refl. now destruct H1.
  - pose proof (Permutation_Forall P Fl) as F12. apply Forall_app in F12. destruct F12 as [F1 F2].
    rewrite (exact_sum_perm _ _ P), exact_sum_app in *. rewrite (Permutation_length P), app_length in *.
    pose proof (exact_sum_nonneg l1 F1) as N1. pose proof (exact_sum_nonneg l2 F2) as N2. pose proof (wp_1 (length l1)) as W1. pose proof (wp_1 (length l2)) as W2. rewrite wp_add in L.
    assert (L1 : exact_sum l1 * wp (length l1) <= bpow radix2 1023).
    { eapply Rle_trans; [|exact L]. rewrite <- Rmult_assoc. apply Rle_trans with (exact_sum l1 * wp (length l1) * 1); [lra|]. apply Rmult_le_compat; try lra; [apply Rmult_le_pos; lra|]. apply Rmult_le_compat_r; lra. }
    assert (L2 : exact_sum l2 * wp (length l2) <= bpow radix2 1023).
    { eapply Rle_trans; [|exact L]. rewrite (Rmult_comm (wp (length l1))), <- Rmult_assoc. apply Rle_trans with (exact_sum l2 * wp (length l2) * 1); [lra|]. apply Rmult_le_compat; try lra; [apply Rmult_le_pos; lra|]. apply Rmult_le_compat_r; lra. }
    destruct (IH1 F1 L1) as (A1 & C1 & Z1). destruct (IH2 F2 L2) as (A2 & C2 & Z2).
    destruct l1 as [|p1 l1].
    { specialize (Z1 eq_refl). cbn [exact_sum fold_right length Nat.add app] in *. destruct (fadd_zero_l a b A1 A2 Z1) as [G1 G2]. split; [exact G1|]. rewrite G2, Rplus_0_l. split; [exact C2|].
      intros ->. apply Permutation_nil in P. apply Z2. exact P. }
    destruct l2 as [|p2 l2].
    { specialize (Z2 eq_refl). cbn [exact_sum fold_right] in C2. rewrite Nat.add_0_r. destruct (fadd_zero_r a b A1 A2 Z2) as [G1 G2]. split; [exact G1|]. rewrite G2. change (exact_sum []) with 0. rewrite Rplus_0_r. split; [exact C1|].
      intros ->. apply Permutation_nil in P. discriminate P. }
    set (n1 := length (p1 :: l1)) in *. set (n2 := length (p2 :: l2)) in *. set (s1 := exact_sum (p1 :: l1)) in *. set (s2 := exact_sum (p2 :: l2)) in *.
    set (n := Nat.max n1 n2). assert (Hn : (n + 1 <= n1 + n2)%nat) by (unfold n, n1, n2; cbn; lia).
    assert (C : close n (B2R a + B2R b) (s1 + s2)) by (apply close_plus; [apply (close_weaken n1); [unfold n; lia|exact C1]|apply (close_weaken n2); [unfold n; lia|exact C2]]).
    assert (T : B2R a + B2R b <= bpow radix2 1023).
    { destruct C as (_ & _ & C & _). eapply Rle_trans; [exact C|]. eapply Rle_trans; [|exact L]. rewrite <- wp_add. apply Rmult_le_compat_l; [lra|]. apply wp_le. lia. }
    destruct (fadd_close a b A1 A2 T) as [G1 G2]. split; [exact G1|]. split.
    + apply (close_weaken (1 + n)); [lia|]. eapply close_trans; [exact G2|exact C].
    + intros ->. apply Permutation_nil in P. discriminate P.
Qed.
Lemma pysum64_sums l : sums l (pysum64 l).
Proof.
  unfold pysum64. assert (G : forall l0 a, sums l0 a -> sums (l0 ++ l) (fold_left fadd l a)).
  { induction l as [|x l IH]; intros l0 a H; cbn [fold_left]; [now rewrite app_nil_r|].
    replace (l0 ++ x :: l) with ((l0 ++ [x]) ++ l) by (now rewrite <- app_assoc). apply IH. apply (sums_add _ l0 [x]); [reflexivity|exact H|constructor]. }
  apply (G []). constructor; reflexivity.
Qed.

(** wp n is at most 1 + n ulp. *)
Lemma wp_bound n : INR n * uu <= / 2 -> wp n <= 1 + INR n * (2 * uu).
Proof.
  intro H. pose proof uu_small as U. assert (B : forall k, (k <= n)%nat -> 1 - INR k * uu <= (1 - uu) ^ k).
  { induction k as [|k IH]; intro Hk; [cbn; lra|]. rewrite S_INR. cbn [pow]. specialize (IH ltac:(lia)). pose proof (pos_INR k).
    assert (A1 : (1 - uu) * (1 - INR k * uu) <= (1 - uu) * (1 - uu) ^ k) by (apply Rmult_le_compat_l; lra).
    assert (A2 : 0 <= INR k * (uu * uu)) by (apply Rmult_le_pos; [lra|apply Rmult_le_pos; lra]). lra. }
  specialize (B n (Nat.le_refl n)). unfold wp, ww. rewrite pow_inv. pose proof (pos_INR n) as N0. assert (0 <= INR n * uu) by nra.
  apply (Rmult_le_reg_r ((1 - uu) ^ n)); [apply pow_lt; lra|]. rewrite Rinv_l by (apply pow_nonzero; lra). nra.
Qed.
Lemma close_within n x y : INR n * uu <= / 2 -> close n x y -> within n x y.
Proof.
  intros H (A & B & C & D). pose proof (wp_bound n H) as W. pose proof (wp_1 n) as W1. pose proof uu_small as U. unfold within.
  replace (INR n / 2 ^ 52) with (INR n * (2 * uu)). 2:{ rewrite uu_val. rewrite (pow_IZR 2 52). change (Z.of_nat 52) with 52%Z. change (2 ^ 53)%Z with (2 * 2 ^ 52)%Z. rewrite mult_IZR. field. apply not_0_IZR. discriminate. }
  pose proof (pos_INR n) as N0. set (e := INR n * (2 * uu)) in *. assert (E0 : 0 <= e) by (unfold e; apply Rmult_le_pos; lra). apply Rabs_le. split; nra.
Qed.

(** ** Powers of two *)
Local Notation bp := (bpow radix2).
Lemma bp_mul a b : bp a * bp b = bp (a + b).
Proof. symmetry. apply bpow_plus. Qed.
Lemma bp_div a b : bp a / bp b = bp (a - b).
Proof. unfold Rdiv. rewrite <- bpow_opp, <- bpow_plus. reflexivity. Qed.
Lemma bp_pos a : 0 < bp a.
Proof. apply bpow_gt_0. Qed.
Lemma bp_1 : bp 1 = 2.
Proof. reflexivity. Qed.
Lemma wp_2 n : INR n * uu <= / 2 -> wp n <= bp 1.
Proof. intro H. pose proof (wp_bound n H). rewrite bp_1. lra. Qed.
Lemma normal_of x a b : bp a <= x <= bp b -> (-1022 <= a)%Z -> (b <= 1023)%Z -> normal x.
Proof. intros H A B. right. pose proof (bpow_le radix2 _ _ A). pose proof (bpow_le radix2 _ _ B). lra. Qed.
Lemma close_0 n x : close n x 0 -> x = 0.
Proof. intros (A & _ & B & _). lra. Qed.

(** ** Sums of channels *)
Definition in_range (s : f64) : Prop := fin_nn s /\ (B2R s = 0 \/ bp (-570) <= B2R s <= bp 200).
Definition energy_ok (E : f64) : Prop := is_finite E = true /\ bp (-50) <= B2R E <= bp (-30).

Lemma in_range_nn l : Forall in_range l -> Forall fin_nn l.
Proof. apply Forall_impl. intros s [H _]. exact H. Qed.
Lemma energy_nn E : energy_ok E -> fin_nn E.
Proof. intros [F H]. split; [exact F|]. pose proof (bp_pos (-50)). lra. Qed.
Lemma sum_bound l : Forall in_range l -> exact_sum l <= INR (length l) * bp 200.
Proof.
  induction 1 as [|s l [[_ S0] Hs] _ IH]; [cbn; lra|]. change (exact_sum (s :: l)) with (B2R s + exact_sum l). change (length (s :: l)) with (S (length l)). rewrite S_INR. pose proof (bp_pos 200). destruct Hs as [->|Hs]; lra.
Qed.
Lemma in_le_sum l s : Forall fin_nn l -> In s l -> B2R s <= exact_sum l.
Proof.
  induction 1 as [|x l [_ Hx] Hl IH]; [intros []|]. change (exact_sum (x :: l)) with (B2R x + exact_sum l). pose proof (exact_sum_nonneg l Hl). intros [->|Hi]; [lra|]. specialize (IH Hi). lra.
Qed.
(** A sum is zero or not too small. *)
Lemma sum_zero_or l : Forall in_range l -> exact_sum l = 0 \/ bp (-570) <= exact_sum l.
Proof.
  induction 1 as [|s l [[_ S0] Hs] Hl IH]; [now left|]. change (exact_sum (s :: l)) with (B2R s + exact_sum l). pose proof (exact_sum_nonneg l (in_range_nn _ Hl)). pose proof (bp_pos (-570)).
  destruct Hs as [->|Hs]; [destruct IH; [left|right]; lra|right; lra].
Qed.
Lemma products l E : Forall in_range l -> energy_ok E ->
  Forall fin_nn (map (fun s => fmul s E) l) /\ close 1 (exact_sum (map (fun s => fmul s E) l)) (exact_sum l * B2R E).
Proof.
  intros H HE. pose proof (energy_nn E HE) as NE. pose proof (proj2 HE) as BE. induction H as [|s l [Ns Hs] _ [IH1 IH2]].
  - split; [constructor|]. cbn [map]. change (exact_sum []) with 0. rewrite Rmult_0_l. apply (close_weaken 0); [lia|]. apply close_refl. lra.
  - assert (N : normal (B2R s * B2R E)).
    { destruct Hs as [->|Hs]; [left; ring|]. apply (normal_of _ (-620) 170); [|lia|lia]. pose proof (bp_pos (-570)). pose proof (bp_pos (-50)).
      replace (bp (-620)) with (bp (-570) * bp (-50)) by apply bp_mul. replace (bp 170) with (bp 200 * bp (-30)) by apply bp_mul. split; apply Rmult_le_compat; lra. }
    destruct (fmul_close s E Ns NE N) as [F C]. cbn [map]. split; [now constructor|].
    change (exact_sum (fmul s E :: map (fun s => fmul s E) l)) with (B2R (fmul s E) + exact_sum (map (fun s => fmul s E) l)). change (exact_sum (s :: l)) with (B2R s + exact_sum l).
    replace ((B2R s + exact_sum l) * B2R E) with (B2R s * B2R E + exact_sum l * B2R E) by ring. now apply close_plus.
Qed.
Lemma INR_small n m : (n <= m)%nat -> INR m * uu <= / 2 -> INR n * uu <= / 2.
Proof. intros H L. pose proof uu_small. assert (INR n <= INR m) by now apply le_INR. assert (INR n * uu <= INR m * uu) by (apply Rmult_le_compat_r; lra). lra. Qed.
Lemma uu_40 : bp 45 * uu <= / 2.
Proof. unfold uu. rewrite bp_mul. change (/ 2) with (bp (-1)). apply bpow_le. lia. Qed.
Lemma few n : INR n <= bp 45 -> INR n * uu <= / 2.
Proof. intro H. pose proof uu_40. pose proof uu_small. assert (INR n * uu <= bp 45 * uu) by (apply Rmult_le_compat_r; lra). lra. Qed.

Section Sum.
  Variable npsum : list f64 -> f64.
  Hypothesis npsum_sums : forall l, sums l (npsum l).
  Definition channel_power (c : channel64) : f64 := npsum (map (fun s => fmul s (energy64 c)) (strength64 c)).
  Definition ranged (c : channel64) : Prop := Forall in_range (strength64 c) /\ energy_ok (energy64 c).
  Lemma power_nonneg c : ranged c -> 0 <= power c.
  Proof. intros [H1 H2]. apply Rmult_le_pos; [apply exact_sum_nonneg, in_range_nn, H1|]. pose proof (proj2 H2). pose proof (bp_pos (-50)). lra. Qed.
  Lemma total_power_nonneg cs : Forall ranged cs -> 0 <= total_power cs.
  Proof. induction 1 as [|c cs H _ IH]; cbn; [lra|]. fold (total_power cs). pose proof (power_nonneg c H). lra. Qed.
  Lemma power_bound c : ranged c -> power c <= INR (length (strength64 c)) * bp 170.
  Proof.
    intros [H1 H2]. unfold power. pose proof (sum_bound _ H1) as B. pose proof (exact_sum_nonneg _ (in_range_nn _ H1)). pose proof (proj2 H2). pose proof (bp_pos (-50)).
    replace (bp 170) with (bp 200 * bp (-30)) by apply bp_mul. rewrite <- Rmult_assoc. apply Rmult_le_compat; lra.
  Qed.
  Lemma total_power_bound cs : Forall ranged cs -> total_power cs <= INR (cells_of cs) * bp 170.
  Proof.
    induction 1 as [|c cs H _ IH]; cbn [total_power fold_right cells_of]; [cbn; lra|]. fold (total_power cs) (cells_of cs). rewrite plus_INR. pose proof (power_bound c H). lra.
  Qed.
  Lemma channel_power_close c : ranged c -> INR (length (strength64 c)) <= bp 40 ->
    fin_nn (channel_power c) /\ close (length (strength64 c) + 1) (B2R (channel_power c)) (power c).
  Proof.
    intros [H1 H2] L. destruct (products _ _ H1 H2) as [F C]. set (ps := map (fun s => fmul s (energy64 c)) (strength64 c)) in *.
    assert (Lp : length ps = length (strength64 c)) by apply map_length.
    assert (L45 : INR (length ps) * uu <= / 2). { apply few. rewrite Lp. pose proof (bpow_le radix2 40 45 ltac:(lia)). lra. }
    assert (T : exact_sum ps * wp (length ps) <= bp 1023).
    { pose proof (wp_2 _ L45) as W. destruct C as (C0 & _ & C & _). pose proof (wp_1 (length ps)). pose proof (wp_2 1 (few 1 ltac:(pose proof (bpow_le radix2 0 45 ltac:(lia)) as Q; change (bp 0) with 1 in Q; cbn; lra))) as W1.
      pose proof (power_bound c (conj H1 H2)) as B. pose proof (power_nonneg c (conj H1 H2)) as B0. fold (power c) in C.
      assert (X : exact_sum ps <= bp 210 * bp 1).
      { apply Rle_trans with (1 := C). apply Rmult_le_compat; [exact B0|left; apply wp_pos| |exact W1]. apply Rle_trans with (1 := B). replace (bp 210) with (bp 40 * bp 170) by apply bp_mul. apply Rmult_le_compat_r; [left; apply bp_pos|lra]. }
      rewrite bp_mul in X. apply Rle_trans with (bp (210 + 1) * bp 1); [apply Rmult_le_compat; [exact C0|left; apply wp_pos|exact X|exact W]|]. rewrite bp_mul. apply bpow_le. lia. }
    destruct (sums_close ps (npsum ps) (npsum_sums ps) F T) as (G & D & _). split; [exact G|]. rewrite <- Lp. eapply close_trans; [exact D|exact C].
  Qed.
  Lemma total_close cs : Forall ranged cs -> INR (cells_of cs + length cs) <= bp 40 ->
    fin_nn (total_power64 npsum cs) /\ close (cells_of cs + length cs + 1) (B2R (total_power64 npsum cs)) (total_power cs).
  Proof.
    intros H L. unfold total_power64. change (map _ cs) with (map channel_power cs).
    assert (G : Forall fin_nn (map channel_power cs) /\ close (cells_of cs + 1) (exact_sum (map channel_power cs)) (total_power cs)).
    { assert (L' : INR (cells_of cs) <= bp 40) by (eapply Rle_trans; [|exact L]; apply le_INR; lia). clear L. induction H as [|c cs Hc _ IH].
      - split; [constructor|]. apply (close_weaken 0); [lia|]. apply close_refl. cbn. lra.
      - cbn [cells_of fold_right] in L' |- *. fold (cells_of cs) in L' |- *. destruct IH as [I1 I2]; [eapply Rle_trans; [|exact L']; apply le_INR; lia|].
        destruct (channel_power_close c Hc) as [F C]; [eapply Rle_trans; [|exact L']; apply le_INR; lia|]. cbn [map]. split; [now constructor|].
        change (exact_sum (channel_power c :: map channel_power cs)) with (B2R (channel_power c) + exact_sum (map channel_power cs)). cbn [total_power fold_right]. fold (total_power cs).
        apply close_plus; [apply (close_weaken (length (strength64 c) + 1)); [lia|exact C]|apply (close_weaken (cells_of cs + 1)); [lia|exact I2]]. }
    destruct G as [F C]. set (vs := map channel_power cs) in *. assert (Lv : length vs = length cs) by apply map_length.
    assert (E40 : bp 40 <= bp 45) by (apply bpow_le; lia). assert (L3 : 1 <= bp 40) by (change 1 with (bp 0); apply bpow_le; lia).
    assert (T : exact_sum vs * wp (length vs) <= bp 1023).
    { assert (W : wp (length vs) <= bp 1) by (apply wp_2, few; rewrite Lv; apply Rle_trans with (bp 40); [|exact E40]; eapply Rle_trans; [|exact L]; apply le_INR; lia).
      assert (W1 : wp (cells_of cs + 1) <= bp 1). { apply wp_2, few. rewrite plus_INR. change (INR 1) with 1. rewrite plus_INR in L. pose proof (pos_INR (length cs)). assert (bp 40 + bp 40 = bp 41) by (change (bp 41) with (2 * bp 40) || (replace (bp 41) with (bp 1 * bp 40) by apply bp_mul; rewrite bp_1; ring); ring). pose proof (bpow_le radix2 41 45 ltac:(lia)). lra. }
      destruct C as (C0 & _ & C & _). pose proof (total_power_bound cs H) as B. pose proof (total_power_nonneg cs H) as B0.
      assert (X : exact_sum vs <= bp 210 * bp 1).
      { apply Rle_trans with (1 := C). apply Rmult_le_compat; [exact B0|left; apply wp_pos| |exact W1]. apply Rle_trans with (1 := B). replace (bp 210) with (bp 40 * bp 170) by apply bp_mul. apply Rmult_le_compat_r; [left; apply bp_pos|]. eapply Rle_trans; [|exact L]. apply le_INR. lia. }
      rewrite bp_mul in X. apply Rle_trans with (bp (210 + 1) * bp 1); [apply Rmult_le_compat; [exact C0|left; apply wp_pos|exact X|exact W]|]. rewrite bp_mul. apply bpow_le. lia. }
    destruct (sums_close vs (pysum64 vs) (pysum64_sums vs) F T) as (G & D & _). split; [exact G|].
    replace (cells_of cs + length cs + 1)%nat with (length vs + (cells_of cs + 1))%nat by lia. eapply close_trans; [exact D|exact C].
  Qed.
End Sum.

(** ** Normalisation *)
(** [c] is [c0] times K, up to j roundings per number. *)
Definition follows (j : nat) (K : R) (c0 c : channel64) : Prop :=
  energy64 c = energy64 c0 /\ multiplicity64 c = multiplicity64 c0 /\
  Forall2 (fun s0 s => fin_nn s /\ close j (B2R s) (B2R s0 * K)) (strength64 c0) (strength64 c) /\
  (fin_nn (reactions64 c) /\ close j (B2R (reactions64 c)) (B2R (reactions64 c0) * K)) /\
  (fin_nn (neutrons64 c) /\ close j (B2R (neutrons64 c)) (B2R (neutrons64 c0) * K)).
(** A new channel with numbers of ordinary size. *)
Definition mult_ok (m : f64) : Prop := fin_nn m /\ (B2R m = 0 \/ 1 <= B2R m <= bp 10).
Definition fresh (c : channel64) : Prop :=
  energy_ok (energy64 c) /\ mult_ok (multiplicity64 c) /\ Forall (fun s => fin_nn s /\ (B2R s = 0 \/ bp (-300) <= B2R s <= bp 150)) (strength64 c) /\
  fin_nn (reactions64 c) /\ close (length (strength64 c)) (B2R (reactions64 c)) (exact_sum (strength64 c)) /\
  fin_nn (neutrons64 c) /\ close 1 (B2R (neutrons64 c)) (B2R (reactions64 c) * B2R (multiplicity64 c)).

Lemma fresh_ranged c : fresh c -> ranged c.
Proof.
  intros (E & _ & S & _). split; [|exact E]. eapply Forall_impl; [|exact S]. intros s [N [Z|H]]; (split; [exact N|]); [now left|right]. pose proof (bpow_le radix2 (-570) (-300) ltac:(lia)). pose proof (bpow_le radix2 150 200 ltac:(lia)). lra.
Qed.
Lemma fresh_bound c : fresh c -> power c <= INR (length (strength64 c)) * bp 120.
Proof.
  intros (E & _ & S & _). unfold power. assert (B : exact_sum (strength64 c) <= INR (length (strength64 c)) * bp 150).
  { induction S as [|s l [[_ S0] Hs] _ IH]; [cbn; lra|]. change (exact_sum (s :: l)) with (B2R s + exact_sum l). change (length (s :: l)) with (Datatypes.S (length l)). rewrite S_INR. pose proof (bp_pos 150). destruct Hs as [->|Hs]; lra. }
  assert (N : 0 <= exact_sum (strength64 c)) by (apply exact_sum_nonneg; eapply Forall_impl; [|exact S]; intros s [N _]; exact N).
  pose proof (proj2 E). pose proof (bp_pos (-50)). replace (bp 120) with (bp 150 * bp (-30)) by apply bp_mul. rewrite <- Rmult_assoc. apply Rmult_le_compat; lra.
Qed.
Lemma fresh_total cs : Forall fresh cs -> total_power cs <= INR (cells_of cs) * bp 120.
Proof. induction 1 as [|c cs H _ IH]; cbn [total_power fold_right cells_of]; [cbn; lra|]. fold (total_power cs) (cells_of cs). rewrite plus_INR. pose proof (fresh_bound c H). lra. Qed.

Lemma follows_sum j K c0 c : 0 <= K -> follows j K c0 c -> close j (exact_sum (strength64 c)) (exact_sum (strength64 c0) * K).
Proof.
  intros HK (_ & _ & S & _). induction S as [|s0 s l0 l [_ C] _ IH].
  - change (exact_sum []) with 0. rewrite Rmult_0_l. apply (close_weaken 0); [lia|]. apply close_refl. lra.
  - change (exact_sum (s :: l)) with (B2R s + exact_sum l). change (exact_sum (s0 :: l0)) with (B2R s0 + exact_sum l0). rewrite Rmult_plus_distr_r. now apply close_plus.
Qed.
Lemma follows_length j K c0 c : follows j K c0 c -> length (strength64 c) = length (strength64 c0).
Proof. intros (_ & _ & S & _). clear - S. induction S; cbn; congruence. Qed.
Lemma follows_power j K c0 c : 0 <= K -> 0 <= B2R (energy64 c0) -> follows j K c0 c -> close j (power c) (power c0 * K).
Proof.
  intros HK HE F. pose proof (follows_sum j K c0 c HK F) as C. destruct F as (E & _). unfold power. rewrite E. replace (exact_sum (strength64 c0) * B2R (energy64 c0) * K) with (exact_sum (strength64 c0) * K * B2R (energy64 c0)) by ring. now apply close_mult_r.
Qed.
Lemma fresh_energy c : fresh c -> 0 <= B2R (energy64 c).
Proof. intros (E & _). apply (energy_nn _ E). Qed.
Lemma follows_total j K cs0 cs : 0 <= K -> Forall fresh cs0 -> Forall2 (follows j K) cs0 cs -> close j (total_power cs) (total_power cs0 * K).
Proof.
  intros HK F R. induction R as [|c0 c cs0 cs H _ IH]; cbn [total_power fold_right].
  - rewrite Rmult_0_l. apply (close_weaken 0); [lia|]. apply close_refl. lra.
  - inversion F; subst. fold (total_power cs) (total_power cs0). rewrite Rmult_plus_distr_r. apply close_plus; [apply follows_power; auto; now apply fresh_energy|auto].
Qed.
Lemma follows_cells j K cs0 cs : Forall2 (follows j K) cs0 cs -> cells_of cs = cells_of cs0 /\ length cs = length cs0.
Proof. induction 1 as [|c0 c cs0 cs H _ [IH1 IH2]]; [now split|]. cbn [cells_of fold_right length]. fold (cells_of cs) (cells_of cs0). rewrite (follows_length _ _ _ _ H), IH1, IH2. now split. Qed.
Lemma in_le_total cs c : Forall ranged cs -> In c cs -> power c <= total_power cs.
Proof. induction 1 as [|x cs H Hl IH]; [intros []|]. cbn [total_power fold_right]. fold (total_power cs). pose proof (power_nonneg x H). pose proof (total_power_nonneg cs Hl). intros [->|Hi]; [lra|]. specialize (IH Hi). lra. Qed.

(** The numbers stay of ordinary size. *)
Lemma follows_ranged j K cs0 cs n P : 0 < K -> Forall fresh cs0 -> Forall2 (follows j K) cs0 cs -> INR j <= bp 42 -> INR n <= bp 42 -> INR (cells_of cs0) <= bp 40 ->
  bp (-100) <= P <= bp 100 -> close n (total_power cs) P -> Forall ranged cs.
Proof.
  intros HK F R Lj Ln Lc HP C. assert (E45 : bp 42 <= bp 45) by (apply bpow_le; lia). assert (Wj : wp j <= bp 1) by (apply wp_2, few; lra). assert (Wn : wp n <= bp 1) by (apply wp_2, few; lra).
  pose proof (follows_total j K cs0 cs ltac:(lra) F R) as T. pose proof (fresh_total cs0 F) as B0. pose proof (bp_pos (-100)) as P100.
  set (t := total_power cs) in *. set (t0 := total_power cs0) in *.
  assert (Ht : bp (-101) <= t).
  { destruct C as (_ & _ & _ & C). apply (Rmult_le_reg_r (bp 1)); [apply bp_pos|]. rewrite bp_mul. change (-101 + 1)%Z with (-100)%Z. assert (t * wp n <= t * bp 1) by (apply Rmult_le_compat_l; [apply T|exact Wn]). lra. }
  assert (Ht2 : t <= bp 101).
  { destruct C as (_ & C0 & C & _). assert (P * wp n <= bp 100 * bp 1) by (apply Rmult_le_compat; [lra|left; apply wp_pos|lra|exact Wn]). rewrite bp_mul in H. change (100 + 1)%Z with 101%Z in H. lra. }
  assert (Ht0 : t0 <= bp 160).
  { apply Rle_trans with (1 := B0). replace (bp 160) with (bp 40 * bp 120) by apply bp_mul. apply Rmult_le_compat_r; [left; apply bp_pos|exact Lc]. }
  assert (HKl : bp (-262) <= K).
  { destruct T as (_ & T0 & T & _). apply (Rmult_le_reg_l (bp 160 * bp 1)); [apply Rmult_lt_0_compat; apply bp_pos|]. rewrite !bp_mul. change (160 + 1 + -262)%Z with (-101)%Z. apply Rle_trans with (1 := Ht). apply Rle_trans with (1 := T). rewrite <- bp_mul.
    replace (bp 160 * bp 1 * K) with ((bp 160 * K) * bp 1) by ring. apply Rmult_le_compat; [exact T0|left; apply wp_pos| |exact Wj]. apply Rmult_le_compat_r; lra. }
  (* lower bound *)
  assert (Low : forall c0 c s, In c0 cs0 -> follows j K c0 c -> In s (strength64 c) -> fin_nn s /\ (B2R s = 0 \/ bp (-570) <= B2R s)).
  { intros c0 c s Hc0 Hf Hs. rewrite Forall_forall in F. destruct (F c0 Hc0) as (_ & _ & S & _). destruct Hf as (_ & _ & S2 & _). clear - S S2 Hs Wj HKl HK.
    induction S2 as [|s0 s' l0 l [N Cs] S2 IH]; [destruct Hs|]. inversion S as [|? ? [N0 V0] S']; subst. destruct Hs as [->|Hs]; [|now apply IH]. split; [exact N|]. destruct V0 as [Z|V0].
    - left. rewrite Z, Rmult_0_l in Cs. now apply close_0 in Cs.
    - right. destruct Cs as (_ & _ & _ & Cs). apply (Rmult_le_reg_r (bp 1)); [apply bp_pos|]. rewrite bp_mul. apply Rle_trans with (B2R s * wp j); [|apply Rmult_le_compat_l; [apply N|exact Wj]].
      apply Rle_trans with (2 := Cs). apply Rle_trans with (bp (-300) * bp (-262)); [rewrite bp_mul; apply bpow_le; lia|]. apply Rmult_le_compat; try (left; apply bp_pos); lra. }
  (* upper bound: no cell has more than the total power *)
  assert (Nn : Forall (fun c => Forall fin_nn (strength64 c) /\ energy_ok (energy64 c)) cs).
  { clear - F R. induction R as [|c0 c cs0 cs H _ IH]; [constructor|]. inversion F as [|? ? Hf F']; subst. constructor; [|auto]. destruct H as (E & _ & S & _). destruct Hf as (E0 & _). split; [|now rewrite E].
    clear - S. induction S as [|s0 s l0 l [N _] _ IH]; constructor; auto. }
  assert (Up : forall c s, In c cs -> In s (strength64 c) -> B2R s <= bp 200).
  { intros c s Hc Hs.
    assert (Pc : forall x, In x cs -> 0 <= power x).
    { intros x Hx. rewrite Forall_forall in Nn. destruct (Nn x Hx) as [N1 N2]. apply Rmult_le_pos; [now apply exact_sum_nonneg|apply (energy_nn _ N2)]. }
    assert (Pt : power c <= t).
    { unfold t. clear - Pc Hc. induction cs as [|x cs IH]; [destruct Hc|]. cbn [total_power fold_right]. fold (total_power cs).
      assert (Q : 0 <= total_power cs). { clear - Pc. induction cs as [|y cs IH]; cbn; [lra|]. fold (total_power cs). assert (0 <= power y) by (apply Pc; right; now left). assert (0 <= total_power cs) by (apply IH; intros z [->|Hz]; apply Pc; [now left|right; now right]). lra. }
      pose proof (Pc x (or_introl eq_refl)). destruct Hc as [->|Hc]; [lra|]. assert (power c <= total_power cs) by (apply IH; [exact Hc|intros y Hy; apply Pc; now right]). lra. }
    rewrite Forall_forall in Nn. destruct (Nn c Hc) as [N1 [N2 N3]]. pose proof (in_le_sum _ s N1 Hs) as Q. unfold power in Pt. pose proof (exact_sum_nonneg _ N1). pose proof (bp_pos (-50)).
    apply (Rmult_le_reg_r (bp (-50))); [apply bp_pos|]. rewrite bp_mul. apply Rle_trans with (exact_sum (strength64 c) * B2R (energy64 c)); [apply Rmult_le_compat; try lra|]. { rewrite Forall_forall in N1. apply (N1 s Hs). }
    pose proof (bpow_le radix2 101 (200 + -50) ltac:(lia)). lra. }
  apply Forall_forall. intros c Hc. pose proof Nn as Nn'. rewrite Forall_forall in Nn'. destruct (Nn' c Hc) as [N1 N2]. split; [|exact N2]. apply Forall_forall. intros s Hs.
  assert (X : exists c0, In c0 cs0 /\ follows j K c0 c) by (clear - R Hc; induction R as [|c0 c' cs0 cs H _ IH]; [destruct Hc|]; destruct Hc as [->|Hc]; [exists c0; split; [now left|exact H]|destruct (IH Hc) as (x & Hx & Hf); exists x; split; [now right|exact Hf]]).
  destruct X as (c0 & Hc0 & Hf). destruct (Low c0 c s Hc0 Hf Hs) as [Q1 [Q2|Q2]]; (split; [exact Q1|]); [now left|right]. split; [exact Q2|now apply (Up c)].
Qed.

Section Step.
  Variable npsum : list f64 -> f64.
  Hypothesis npsum_sums : forall l, sums l (npsum l).

  Lemma small_nat n a : INR n <= bp a -> (a <= 45)%Z -> wp n <= bp 1.
  Proof. intros H A. apply wp_2, few. pose proof (bpow_le radix2 a 45 A). lra. Qed.
  Lemma bp_double a : bp a + bp a = bp (a + 1).
  Proof. rewrite <- bp_mul, bp_1. ring. Qed.
  Lemma close_le n x y : close n x y -> wp n <= bp 1 -> x <= bp 1 * y /\ y <= bp 1 * x.
  Proof. intros (A & B & C & D) W. assert (y * wp n <= y * bp 1) by now apply Rmult_le_compat_l. assert (x * wp n <= x * bp 1) by now apply Rmult_le_compat_l. lra. Qed.

  (** The scale factor. *)
  Lemma factor cs P : Forall ranged cs -> 0 < total_power cs -> INR (cells_of cs + length cs) <= bp 40 -> between (-100) 100 P ->
    let k := fdiv P (total_power64 npsum cs) in
    fin_nn k /\ close (cells_of cs + length cs + 2) (B2R k * total_power cs) (B2R P) /\ bp (-313) <= B2R k /\ B2R k * total_power cs <= bp 102.
  Proof.
    intros H T L [FP BP] k. rewrite !two_bpow in BP. destruct (total_close npsum npsum_sums cs H L) as [FA CA]. set (A := total_power64 npsum cs) in *. set (t := total_power cs) in *. set (n := (cells_of cs + length cs)%nat) in *.
    assert (PA : 0 < B2R A) by (eapply close_pos; eauto).
    assert (Wn : wp (n + 1) <= bp 1). { apply (small_nat _ 41); [|lia]. rewrite plus_INR. change (INR 1) with 1. assert (1 <= bp 40) by (change 1 with (bp 0); apply bpow_le; lia). change 41%Z with (40 + 1)%Z. rewrite <- bp_double. lra. }
    assert (W1 : wp 1 <= bp 1) by (apply (small_nat 1 0); [change (INR 1) with 1; change (bp 0) with 1; lra|lia]).
    destruct (close_le _ _ _ CA Wn) as [CA1 CA2].
    pose proof (total_power_bound cs H) as B. fold t in B.
    assert (Tt : t <= bp 210). { apply Rle_trans with (1 := B). replace (bp 210) with (bp 40 * bp 170) by apply bp_mul. apply Rmult_le_compat_r; [left; apply bp_pos|]. eapply Rle_trans; [|exact L]. apply le_INR. unfold n. lia. }
    assert (Tl : bp (-620) <= t).
    { clear - H T. subst t. induction H as [|c cs Hc Hl IH]; [cbn in T; lra|]. cbn [total_power fold_right] in *. fold (total_power cs) in *. pose proof (power_nonneg c Hc) as P0. pose proof (total_power_nonneg cs Hl) as T0.
      destruct Hc as [Hc He]. unfold power in *. destruct (sum_zero_or _ Hc) as [Z|Z].
      - rewrite Z, Rmult_0_l in T. rewrite Z, Rmult_0_l. rewrite Rplus_0_l in *. now apply IH.
      - apply Rle_trans with (bp (-570) * bp (-50)); [rewrite bp_mul; cbn [Z.add Z.pos_sub Pos.add Pos.succ]; apply Rle_refl|]. assert (bp (-570) * bp (-50) <= exact_sum (strength64 c) * B2R (energy64 c)) by (apply Rmult_le_compat; try (left; apply bp_pos); [exact Z|apply He]). lra. }
    assert (NP : fin_nn P) by (split; [exact FP|pose proof (bp_pos (-100)); lra]).
    assert (Q1 : bp (-311) <= B2R P / B2R A).
    { apply (Rmult_le_reg_r (B2R A)); [exact PA|]. unfold Rdiv. rewrite Rmult_assoc, Rinv_l, Rmult_1_r by lra. apply Rle_trans with (bp (-311) * (bp 1 * bp 210)); [apply Rmult_le_compat_l; [left; apply bp_pos|]; apply Rle_trans with (1 := CA1); apply Rmult_le_compat_l; [left; apply bp_pos|exact Tt]|]. rewrite !bp_mul. change (bp (-311 + (1 + 210))) with (bp (-100)). lra. }
    assert (Q2 : B2R P / B2R A <= bp 721).
    { apply (Rmult_le_reg_r (B2R A)); [exact PA|]. unfold Rdiv. rewrite Rmult_assoc, Rinv_l, Rmult_1_r by lra. apply Rle_trans with (bp 100); [lra|].
      assert (X : bp (-621) <= B2R A). { apply (Rmult_le_reg_l (bp 1)); [apply bp_pos|]. rewrite bp_mul. change (1 + -621)%Z with (-620)%Z. lra. }
      apply Rle_trans with (bp 721 * bp (-621)); [rewrite bp_mul; cbn [Z.add Z.pos_sub Pos.add Pos.succ]; apply Rle_refl|]. apply Rmult_le_compat_l; [left; apply bp_pos|exact X]. }
    destruct (fdiv_close P A NP FA PA (normal_of _ (-311) 721 (conj Q1 Q2) ltac:(lia) ltac:(lia))) as [Fk Ck]. fold k in Fk, Ck.
    assert (Cf : close (n + 2) (B2R k * t) (B2R P)).
    { replace (n + 2)%nat with (1 + (n + 1))%nat by lia. apply (close_trans 1 (n + 1) _ (B2R P / B2R A * t)).
      - apply close_mult_r; [lra|exact Ck].
      - replace (B2R P) with (B2R P / B2R A * B2R A) at 2 by (field; lra). rewrite (Rmult_comm _ t), (Rmult_comm _ (B2R A)). apply close_mult_r; [|now apply close_sym]. pose proof (bp_pos (-311)). lra. }
    split; [exact Fk|]. split; [exact Cf|]. destruct (close_le _ _ _ Ck W1) as [K1 K2]. split.
    - apply (Rmult_le_reg_l (bp 1)); [apply bp_pos|]. rewrite bp_mul. pose proof (bpow_le radix2 (1 + -313) (-311) ltac:(lia)). lra.
    - destruct (close_le _ _ _ Cf) as [C1 _].
      + apply (small_nat _ 41); [|lia]. rewrite plus_INR. change (INR 2) with (1 + 1). assert (bp 1 <= bp 40) by (apply bpow_le; lia). rewrite bp_1 in *. change 41%Z with (40 + 1)%Z. rewrite <- bp_double. lra.
      + apply Rle_trans with (1 := C1). replace (bp 102) with (bp 1 * bp 101) by apply bp_mul. pose proof (bpow_le radix2 100 101 ltac:(lia)). apply Rmult_le_compat_l; [left; apply bp_pos|lra].
  Qed.

  (** One number of the source times the factor. *)
  Lemma times_factor cs c k x y : Forall ranged cs -> In c cs -> fin_nn k -> bp (-313) <= B2R k -> B2R k * total_power cs <= bp 102 -> fin_nn x ->
    (y = 0 \/ 1 <= y <= bp 10) -> (B2R x = 0 \/ (bp (-571) <= B2R x /\ B2R x <= bp 1 * (exact_sum (strength64 c) * y))) -> fin_nn (fmul x k) /\ close 1 (B2R (fmul x k)) (B2R x * B2R k).
  Proof.
    intros H Hc Fk K1 K2 Fx Hy Hx. apply fmul_close; [exact Fx|exact Fk|]. destruct Hx as [->|[X1 X2]]; [left; ring|]. pose proof (in_le_total cs c H Hc) as Pc. rewrite Forall_forall in H. destruct (H c Hc) as [Hs [_ He]].
    pose proof (exact_sum_nonneg _ (in_range_nn _ Hs)) as S0. pose proof (bp_pos (-50)). pose proof (bp_pos (-313)). set (t := total_power cs) in *. unfold power in Pc.
    assert (St : exact_sum (strength64 c) <= bp 50 * t).
    { apply (Rmult_le_reg_r (bp (-50))); [apply bp_pos|]. replace (bp 50 * t * bp (-50)) with (t * (bp 50 * bp (-50))) by ring. rewrite bp_mul. change (bp (50 + -50)) with 1. rewrite Rmult_1_r. apply Rle_trans with (2 := Pc). apply Rmult_le_compat_l; lra. }
    apply (normal_of _ (-884) 163); [|lia|lia]. split.
    - apply Rle_trans with (bp (-571) * bp (-313)); [rewrite bp_mul; cbn [Z.add Z.pos_sub Pos.add Pos.succ]; apply Rle_refl|]. apply Rmult_le_compat; try (left; apply bp_pos); lra.
    - assert (Y : y <= bp 10) by (destruct Hy as [->|Hy]; [left; apply bp_pos|lra]). assert (Y0 : 0 <= y) by (destruct Hy as [->|Hy]; lra).
      assert (X3 : B2R x <= bp 1 * (bp 50 * t * bp 10)) by (apply Rle_trans with (1 := X2); apply Rmult_le_compat_l; [left; apply bp_pos|]; apply Rmult_le_compat; lra).
      apply Rle_trans with (bp 1 * (bp 50 * t * bp 10) * B2R k); [apply Rmult_le_compat_r; [apply Fk|exact X3]|].
      replace (bp 1 * (bp 50 * t * bp 10) * B2R k) with ((bp 1 * bp 50 * bp 10) * (B2R k * t)) by ring. rewrite !bp_mul. replace (bp 163) with (bp (1 + 50 + 10) * bp 102) by (rewrite bp_mul; reflexivity). apply Rmult_le_compat_l; [left; apply bp_pos|exact K2].
  Qed.

  Lemma follow_channel j K cs c0 c k : fresh c0 -> follows j K c0 c -> 0 < K -> INR j <= bp 40 -> INR (length (strength64 c0)) <= bp 40 ->
    Forall ranged cs -> In c cs -> fin_nn k -> bp (-313) <= B2R k -> B2R k * total_power cs <= bp 102 -> follows (S j) (K * B2R k) c0 (rescale64 k c).
  Proof.
    intros Fr Fo HK Lj Ln H Hc Fk K1 K2. pose proof (times_factor cs c k) as TF. pose proof Fr as (_ & Mo & _ & Fr0 & Cr0 & Fn0 & Cn0).
    pose proof (follows_sum j K c0 c ltac:(lra) Fo) as Cs. set (n := length (strength64 c0)) in *. set (sg := exact_sum (strength64 c)) in *.
    destruct Fo as (E & M & S & (Fr1 & Cr) & (Fn1 & Cn)). rewrite Forall_forall in H. pose proof (proj1 (H c Hc)) as Hs. rewrite <- Forall_forall in H.
    assert (Cr' : close (j + (n + j)) (B2R (reactions64 c)) sg).
    { eapply close_trans; [exact Cr|]. apply (close_trans n j _ (exact_sum (strength64 c0) * K)); [apply close_mult_r; [lra|exact Cr0]|now apply close_sym]. }
    assert (Cn' : close (j + (1 + (n + j))) (B2R (neutrons64 c)) (sg * B2R (multiplicity64 c0))).
    { eapply close_trans; [exact Cn|]. apply (close_trans 1 (n + j) _ (B2R (reactions64 c0) * B2R (multiplicity64 c0) * K)); [apply close_mult_r; [lra|exact Cn0]|].
      replace (B2R (reactions64 c0) * B2R (multiplicity64 c0) * K) with (B2R (reactions64 c0) * K * B2R (multiplicity64 c0)) by ring. apply close_mult_r; [apply Mo|].
      apply (close_trans n j _ (exact_sum (strength64 c0) * K)); [apply close_mult_r; [lra|exact Cr0]|now apply close_sym]. }
    assert (W : wp (j + (1 + (n + j))) <= bp 1).
    { apply (small_nat _ 42); [|lia]. rewrite !plus_INR. change (INR 1) with 1. assert (1 <= bp 40) by (change 1 with (bp 0); apply bpow_le; lia). change 42%Z with (40 + 1 + 1)%Z. rewrite <- !bp_double. lra. }
    assert (W' : wp (j + (n + j)) <= bp 1) by (eapply Rle_trans; [|exact W]; apply wp_le; lia).
    pose proof (sum_zero_or _ Hs) as Z. fold sg in Z. pose proof (bp_pos (-570)) as P570.
    assert (Half : forall x y, bp (-570) <= y -> y <= bp 1 * x -> bp (-571) <= x).
    { intros x y A B. apply (Rmult_le_reg_l (bp 1)); [apply bp_pos|]. rewrite bp_mul. change (1 + -571)%Z with (-570)%Z. lra. }
    unfold follows. cbn [rescale64 energy64 multiplicity64 strength64 reactions64 neutrons64]. split; [exact E|]. split; [exact M|]. split; [|split].
    - (* strengths *)
      assert (Sle : forall s, In s (strength64 c) -> fin_nn s /\ (B2R s = 0 \/ bp (-571) <= B2R s /\ B2R s <= bp 1 * (sg * 1))).
      { intros s Hi. pose proof Hs as Hs'. rewrite Forall_forall in Hs'. destruct (Hs' s Hi) as [Ns Vs]. split; [exact Ns|]. destruct Vs as [V|V]; [now left|right]. pose proof (bpow_le radix2 (-571) (-570) ltac:(lia)). split; [lra|].
        pose proof (in_le_sum _ s (in_range_nn _ Hs) Hi) as Q. fold sg in Q. rewrite bp_1. pose proof (proj2 Ns). lra. }
      clear - S Sle TF H Hc Fk K1 K2 HK. revert S Sle. generalize (strength64 c0) as l0. generalize (strength64 c) at 1 2 3 as l.
      intros l l0 S Sle. induction S as [|s0 s l0 l [N C] S IH]; cbn [map]; constructor.
      + destruct (Sle s (or_introl eq_refl)) as [Ns Vs].
        assert (T1 : (1 = 0 \/ 1 <= 1 <= bp 10)) by (right; split; [lra|change 1 with (bp 0); apply bpow_le; lia]).
        destruct (TF s 1 H Hc Fk K1 K2 Ns T1 Vs) as [G1 G2]. split; [exact G1|]. change (Datatypes.S j) with (1 + j)%nat. eapply close_trans; [exact G2|]. rewrite <- Rmult_assoc. apply close_mult_r; [apply Fk|exact C].
      + apply IH. intros s' Hi. apply Sle. now right.
    - (* reactions *)
      assert (T1 : (1 = 0 \/ 1 <= 1 <= bp 10)) by (right; split; [lra|change 1 with (bp 0); apply bpow_le; lia]).
      assert (V : B2R (reactions64 c) = 0 \/ bp (-571) <= B2R (reactions64 c) /\ B2R (reactions64 c) <= bp 1 * (sg * 1)).
      { destruct Z as [Z|Z]; [left; rewrite Z in Cr'; now apply close_0 in Cr'|right]. destruct (close_le _ _ _ Cr' W') as [A B]. split; [eapply Half; eauto|now rewrite Rmult_1_r]. }
      destruct (TF (reactions64 c) 1 H Hc Fk K1 K2 Fr1 T1 V) as [G1 G2]. split; [exact G1|]. change (Datatypes.S j) with (1 + j)%nat. eapply close_trans; [exact G2|]. rewrite <- Rmult_assoc. apply close_mult_r; [apply Fk|exact Cr].
    - (* neutrons *)
      pose proof (proj2 Mo) as My.
      assert (V : B2R (neutrons64 c) = 0 \/ bp (-571) <= B2R (neutrons64 c) /\ B2R (neutrons64 c) <= bp 1 * (sg * B2R (multiplicity64 c0))).
      { destruct Z as [Z|Z]; [left; rewrite Z, Rmult_0_l in Cn'; now apply close_0 in Cn'|]. destruct My as [My|My]; [left; rewrite My, Rmult_0_r in Cn'; now apply close_0 in Cn'|right].
        destruct (close_le _ _ _ Cn' W) as [A B]. split; [|exact A]. apply (Half _ (sg * B2R (multiplicity64 c0))); [|exact B]. apply Rle_trans with (1 := Z). rewrite <- (Rmult_1_r sg) at 1. apply Rmult_le_compat_l; lra. }
      destruct (TF (neutrons64 c) (B2R (multiplicity64 c0)) H Hc Fk K1 K2 Fn1 My V) as [G1 G2]. split; [exact G1|]. change (Datatypes.S j) with (1 + j)%nat. eapply close_trans; [exact G2|]. rewrite <- Rmult_assoc. apply close_mult_r; [apply Fk|exact Cn].
  Qed.

  Lemma total_rescale k cs : Forall ranged cs -> 0 <= B2R k -> (forall c s, In c cs -> In s (strength64 c) -> close 1 (B2R (fmul s k)) (B2R s * B2R k)) ->
    close 1 (total_power (map (rescale64 k) cs)) (B2R k * total_power cs).
  Proof.
    intros H Hk C. induction H as [|c cs Hc _ IH]; cbn [map total_power fold_right].
    - rewrite Rmult_0_r. apply (close_weaken 0); [lia|]. apply close_refl. lra.
    - fold (total_power cs) (total_power (map (rescale64 k) cs)). rewrite Rmult_plus_distr_l. apply close_plus; [|apply IH; intros; eapply C; eauto; now right].
      unfold power. cbn [rescale64 energy64 strength64]. replace (B2R k * (exact_sum (strength64 c) * B2R (energy64 c))) with (exact_sum (strength64 c) * B2R k * B2R (energy64 c)) by ring. apply close_mult_r; [apply energy_nn, Hc|].
      assert (C' : forall s, In s (strength64 c) -> close 1 (B2R (fmul s k)) (B2R s * B2R k)) by (intros; eapply C; eauto; now left). clear - C' Hk. induction (strength64 c) as [|s l IH].
      + cbn [map]. change (exact_sum []) with 0. rewrite Rmult_0_l. apply (close_weaken 0); [lia|]. apply close_refl. lra.
      + cbn [map]. change (exact_sum (fmul s k :: map (fun s0 => fmul s0 k) l)) with (B2R (fmul s k) + exact_sum (map (fun s0 => fmul s0 k) l)). change (exact_sum (s :: l)) with (B2R s + exact_sum l). rewrite Rmult_plus_distr_r. apply close_plus; [apply C'; now left|apply IH; intros; apply C'; now right].
  Qed.

  (** The state after j normalisations, the last one to the power P. *)
  Definition normalised (cs0 : list channel64) (j : nat) (K : R) (cs : list channel64) : Prop :=
    0 < K /\ Forall2 (follows j K) cs0 cs /\ Forall ranged cs /\ 0 < total_power cs.

  Lemma step cs0 j K cs P : Forall fresh cs0 -> cs0 <> [] -> normalised cs0 j K cs -> INR (S j) <= bp 40 -> INR (cells_of cs0 + length cs0) <= bp 39 -> between (-100) 100 P ->
    exists (k : f64) cs', normalise64 npsum cs P = Ok cs' /\ normalised cs0 (S j) (K * B2R k) cs' /\ close (cells_of cs0 + length cs0 + 3) (total_power cs') (B2R P).
  Proof.
    intros F Ne (HK & Fo & H & T) Lj L HP. destruct (follows_cells _ _ _ _ Fo) as [Ec El]. assert (L40 : bp 39 <= bp 40) by (apply bpow_le; lia).
    destruct (factor cs P H T) as (Fk & Ck & K1 & K2); [rewrite Ec, El; lra|exact HP|]. set (k := fdiv P (total_power64 npsum cs)) in *. rewrite Ec, El in Ck.
    exists k, (map (rescale64 k) cs). pose proof (bp_pos (-313)) as P313.
    assert (Fo' : Forall2 (follows (S j) (K * B2R k)) cs0 (map (rescale64 k) cs)).
    { assert (G : forall c0 c, In c0 cs0 -> In c cs -> follows j K c0 c -> follows (S j) (K * B2R k) c0 (rescale64 k c)).
      { intros c0 c I0 I1 Hf. rewrite Forall_forall in F. apply (follow_channel j K cs c0 c k (F c0 I0) Hf HK); auto.
        - eapply Rle_trans; [|exact Lj]. apply le_INR. lia.
        - apply Rle_trans with (bp 39); [|exact L40]. eapply Rle_trans; [|exact L]. apply le_INR. clear - I0. induction cs0 as [|x l IH]; [destruct I0|]. cbn [cells_of fold_right length]. fold (cells_of l). destruct I0 as [->|I0]; [lia|]. specialize (IH I0). lia. }
      clearbody k. clear - Fo G. revert G. induction Fo as [|c0 c cs0 cs Hf _ IH]; intro G; cbn [map]; constructor; [apply G; auto; now left|]. apply IH. intros; apply G; auto; now right. }
    assert (Ct : close (cells_of cs0 + length cs0 + 3) (total_power (map (rescale64 k) cs)) (B2R P)).
    { replace (cells_of cs0 + length cs0 + 3)%nat with (1 + (cells_of cs0 + length cs0 + 2))%nat by lia. eapply close_trans; [|exact Ck]. apply total_rescale; [exact H|apply Fk|].
      intros c s Hc Hs. assert (T1 : (1 = 0 \/ 1 <= 1 <= bp 10)) by (right; split; [lra|change 1 with (bp 0); apply bpow_le; lia]).
      pose proof H as H'. rewrite Forall_forall in H'. destruct (H' c Hc) as [Hr _]. pose proof Hr as Hr'. rewrite Forall_forall in Hr'. destruct (Hr' s Hs) as [Ns Vs].
      apply (times_factor cs c k s 1 H Hc Fk K1 K2 Ns T1). destruct Vs as [V|V]; [now left|right]. pose proof (bpow_le radix2 (-571) (-570) ltac:(lia)). split; [lra|].
      pose proof (in_le_sum _ s (in_range_nn _ Hr) Hs) as Q. rewrite bp_1. pose proof (proj2 Ns). lra. }
    assert (HP' : bp (-100) <= B2R P <= bp 100) by (destruct HP as [_ B]; rewrite !two_bpow in B; exact B).
    split; [|split; [|exact Ct]].
    - unfold normalise64. destruct cs; [|reflexivity]. inversion Fo; subst. contradiction.
    - split; [apply Rmult_lt_0_compat; lra|]. split; [exact Fo'|]. split.
      + apply (follows_ranged (S j) (K * B2R k) cs0 _ (cells_of cs0 + length cs0 + 3) (B2R P)); auto.
        * apply Rmult_lt_0_compat; lra.
        * pose proof (bpow_le radix2 40 42 ltac:(lia)). lra.
        * rewrite plus_INR. change (INR 3) with (1 + 1 + 1). assert (1 <= bp 39) by (change 1 with (bp 0); apply bpow_le; lia). change 42%Z with (39 + 1 + 1 + 1)%Z. rewrite <- !bp_double. lra.
        * apply Rle_trans with (bp 39); [|exact L40]. eapply Rle_trans; [|exact L]. apply le_INR. lia.
      + eapply close_pos; [exact Ct|]. pose proof (bp_pos (-100)). lra.
  Qed.

  Lemma start cs0 : Forall fresh cs0 -> 0 < total_power cs0 -> normalised cs0 0 1 cs0.
  Proof.
    intros F T. split; [lra|]. split; [|split; [eapply Forall_impl; [|exact F]; exact fresh_ranged|exact T]]. clear T. induction F as [|c cs (_ & _ & S & Fr & _ & Fn & _) _ IH]; constructor; [|exact IH].
    split; [reflexivity|]. split; [reflexivity|]. rewrite !Rmult_1_r. split; [|split; split; auto; apply close_refl; [apply Fr|apply Fn]].
    clear - S. induction S as [|s l [N _] _ IH]; constructor; [|exact IH]. rewrite Rmult_1_r. split; [exact N|apply close_refl, N].
  Qed.

  Lemma history Ps : forall cs0 j K cs, Forall fresh cs0 -> cs0 <> [] -> normalised cs0 j K cs -> INR (j + length Ps) <= bp 40 -> INR (cells_of cs0 + length cs0) <= bp 39 -> Forall (between (-100) 100) Ps ->
    exists K' cs', normalise_all64 npsum cs Ps = Ok cs' /\ normalised cs0 (j + length Ps) K' cs' /\
      (forall P, last (map Some Ps) None = Some P -> close (cells_of cs0 + length cs0 + 3) (total_power cs') (B2R P)).
  Proof.
    induction Ps as [|P Ps IH]; intros cs0 j K cs F Ne N Lj L HP.
    - exists K, cs. split; [reflexivity|]. cbn [length]. rewrite Nat.add_0_r. split; [exact N|]. discriminate.
    - inversion HP; subst. destruct (step cs0 j K cs P F Ne N) as (k & cs1 & E1 & N1 & C1); [eapply Rle_trans; [|exact Lj]; apply le_INR; cbn; lia|exact L|assumption|].
      destruct (IH cs0 (S j) _ cs1 F Ne N1) as (K' & cs' & E2 & N2 & C2); [eapply Rle_trans; [|exact Lj]; apply le_INR; cbn; lia|exact L|assumption|].
      exists K', cs'. cbn [normalise_all64]. rewrite E1. cbn [bind length]. replace (j + S (length Ps))%nat with (S j + length Ps)%nat by lia. split; [exact E2|]. split; [exact N2|].
      intros Q HQ. destruct Ps as [|P' Ps]; [|apply C2; exact HQ]. cbn in HQ. injection HQ as <-. cbn in E2. injection E2 as <-. exact C1.
  Qed.
End Step.

(** ** From the constructor *)
Section New.
  Variable npsum : list f64 -> f64.
  Hypothesis npsum_sums : forall l, sums l (npsum l).

  Lemma sum_in c l : Forall (fun s => fin_nn s /\ (B2R s = 0 \/ bp (-300) <= B2R s <= bp c)) l -> exact_sum l <= INR (length l) * bp c /\ (exact_sum l = 0 \/ bp (-300) <= exact_sum l).
  Proof.
    induction 1 as [|s l [[_ S0] Hs] Hl [IH1 IH2]]; [cbn; lra|]. change (exact_sum (s :: l)) with (B2R s + exact_sum l). change (length (s :: l)) with (S (length l)). rewrite S_INR. pose proof (bp_pos c). pose proof (bp_pos (-300)).
    assert (N : 0 <= exact_sum l) by (apply exact_sum_nonneg; eapply Forall_impl; [|exact Hl]; intros x [Hx _]; exact Hx).
    destruct Hs as [->|Hs]; (split; [lra|]); [|right; lra]. destruct IH2; [left|right]; lra.
  Qed.
  Lemma ordinary_fresh d : ordinary d -> INR (length (snd d)) <= bp 39 -> fresh (new_channel64 (fst (fst d)) (snd (fst d)) (snd d)).
  Proof.
    destruct d as [[E m] l]. cbn [fst snd]. intros ([FE HE] & (Fm & Hm) & Hl) L. rewrite !two_bpow in *.
    assert (Hs : Forall (fun s => fin_nn s /\ (B2R s = 0 \/ bp (-300) <= B2R s <= bp 150)) l).
    { eapply Forall_impl; [|exact Hl]. intros s [Fs Vs]. split; [split; [exact Fs|]; pose proof (bp_pos (-300)); destruct Vs; lra|exact Vs]. }
    cbn [fst snd] in *. assert (Nm : fin_nn m) by (split; [exact Fm|destruct Hm; lra]).
    assert (N : Forall fin_nn l) by (eapply Forall_impl; [|exact Hs]; intros x [Hx _]; exact Hx).
    destruct (sum_in 150 l Hs) as [B1 B2]. pose proof (exact_sum_nonneg l N) as B0.
    assert (W : wp (length l) <= bp 1) by (apply (small_nat _ 39); [exact L|lia]).
    assert (B3 : exact_sum l <= bp 189). { apply Rle_trans with (1 := B1). replace (bp 189) with (bp 39 * bp 150) by apply bp_mul. apply Rmult_le_compat_r; [left; apply bp_pos|exact L]. }
    destruct (sums_close l (pysum64 l) (pysum64_sums l) N) as (F & C & _).
    { apply Rle_trans with (bp 189 * bp 1); [apply Rmult_le_compat; try lra; left; apply wp_pos|]. rewrite bp_mul. apply bpow_le. lia. }
    split; [split; [exact FE|exact HE]|]. split; [split; [exact Nm|exact Hm]|]. split; [exact Hs|]. split; [exact F|]. split; [exact C|]. apply fmul_close; [exact F|exact Nm|].
    cbn [new_channel64 strength64 reactions64 multiplicity64] in *. destruct (close_le _ _ _ C W) as [C1 C2].
    destruct Hm as [Hm|Hm]; [left; rewrite Hm; ring|]. destruct B2 as [B2|B2]; [left; rewrite B2 in C; apply close_0 in C; rewrite C; ring|].
    apply (normal_of _ (-301) 200); [|lia|lia]. assert (X : bp (-301) <= B2R (pysum64 l)). { apply (Rmult_le_reg_l (bp 1)); [apply bp_pos|]. rewrite bp_mul. change (bp (1 + -301)) with (bp (-300)). lra. }
    pose proof (bp_pos (-301)). split; [rewrite <- (Rmult_1_r (bp (-301))); apply Rmult_le_compat; lra|].
    replace (bp 200) with (bp 1 * bp 189 * bp 10) by (rewrite !bp_mul; reflexivity). apply Rmult_le_compat; try lra. apply Rle_trans with (1 := C1). apply Rmult_le_compat_l; [left; apply bp_pos|exact B3].
  Qed.
  Lemma data_cells ds d : In d ds -> (length (snd d) <= cells_of (map new64 ds) + length (map new64 ds))%nat.
  Proof. induction ds as [|x ds IH]; [intros []|]. cbn [map cells_of fold_right length]. fold (cells_of (map new64 ds)). intros [->|H]; [unfold new64; cbn [strength64 new_channel64]; lia|specialize (IH H); lia]. Qed.
  Lemma ordinary_all ds : Forall ordinary ds -> INR (cells_of (map new64 ds) + length (map new64 ds)) <= bp 39 -> Forall fresh (map new64 ds).
  Proof.
    intros H L. apply Forall_forall. intros c Hc. apply in_map_iff in Hc. destruct Hc as (d & <- & Hd). rewrite Forall_forall in H. apply (ordinary_fresh d (H d Hd)). eapply Rle_trans; [|exact L]. apply le_INR. now apply data_cells.
  Qed.
  Lemma ordinary_power ds : Forall fresh (map new64 ds) -> (exists d s, In d ds /\ In s (snd d) /\ 0 < B2R s) -> 0 < total_power (map new64 ds).
  Proof.
    intros F (d & s & Hd & Hs & P). set (cs := map new64 ds) in *. assert (R : Forall ranged cs) by (eapply Forall_impl; [|exact F]; exact fresh_ranged).
    assert (Hc : In (new64 d) cs) by now apply in_map. pose proof (in_le_total cs _ R Hc) as Q. rewrite Forall_forall in R. destruct (R _ Hc) as [R1 [_ R2]].
    pose proof (in_le_sum _ s (in_range_nn _ R1) Hs) as T. unfold power in Q. pose proof (bp_pos (-50)). apply Rlt_le_trans with (2 := Q). apply Rmult_lt_0_compat; lra.
  Qed.
End New.
