(** Lemmas for C98: the Bosch-Hale fit in binary64. *)
From Coq Require Import ZArith Bool Reals Lra Lia List Permutation Floats.SpecFloat.
From Flocq Require Import Core.Core Relative IEEE754.BinarySingleNaN.
From Verif Require Import Base Reactions Reactivity SpecReactivity ReactivityProofs FloatComp FloatCompProofs FloatCompAcc FloatSource SpecFloatSource FloatSourceProofs FloatSpace FloatSpaceProofs FloatReactivity SpecFloatReactivity.
Local Open Scope R_scope.
Local Notation bp := (bpow radix2).

(** ** Relative errors *)
Definition tiny (n : nat) : Prop := INR n <= 100000.
Lemma uu_tiny : uu <= / 2 ^ 50.
Proof. rewrite uu_val. apply Rinv_le_contravar; [apply pow_lt; lra|]. rewrite (pow_IZR 2 50). apply IZR_le. vm_compute. discriminate. Qed.
Lemma uu_pos : 0 < uu.
Proof. rewrite uu_val. apply Rinv_0_lt_compat. apply IZR_lt. reflexivity. Qed.
Lemma uu_1e15 : uu <= / 1000000000000000.
Proof. eapply Rle_trans; [apply uu_tiny|]. apply Rinv_le_contravar; [lra|]. rewrite (pow_IZR 2 50). apply IZR_le. vm_compute. discriminate. Qed.
Lemma wp_sharp n : tiny n -> wp n <= 1 + 1.01 * (INR n * uu).
Proof.
  intro H. unfold tiny in H. pose proof uu_1e15 as U. pose proof uu_pos as U0. pose proof (pos_INR n) as N0.
  assert (B : forall k, 1 - INR k * uu <= (1 - uu) ^ k).
  { induction k as [|k IH]; [cbn; lra|]. rewrite S_INR. cbn [pow]. pose proof (pos_INR k).
    assert (A1 : (1 - uu) * (1 - INR k * uu) <= (1 - uu) * (1 - uu) ^ k) by (apply Rmult_le_compat_l; lra).
    assert (A2 : 0 <= INR k * (uu * uu)) by (apply Rmult_le_pos; [lra|apply Rmult_le_pos; lra]). lra. }
  specialize (B n). unfold wp, ww. rewrite pow_inv. set (e := INR n * uu) in *. assert (E : 0 <= e <= / 1000) by (unfold e; split; nra).
  apply (Rmult_le_reg_r ((1 - uu) ^ n)); [apply pow_lt; lra|]. rewrite Rinv_l by (apply pow_nonzero; lra). nra.
Qed.
Lemma wp_low n : 1 + INR n * uu <= wp n.
Proof.
  induction n as [|n IH]; [cbn; lra|]. rewrite S_INR. change (wp (S n)) with (ww * wp n). pose proof ww_u as W. pose proof uu_pos. pose proof (pos_INR n).
  assert (0 <= INR n * uu) by nra. apply Rle_trans with ((1 + uu) * (1 + INR n * uu)); [nra|]. apply Rmult_le_compat; lra.
Qed.
Lemma exp_wp a n : a <= INR n * uu -> exp a <= wp n.
Proof.
  intro H. apply Rle_trans with (exp (INR n * uu)). { destruct H as [H|H]; [left; now apply exp_increasing|right; now rewrite H]. }
  clear H. pose proof uu_small as U. assert (E : exp uu <= ww).
  { unfold ww. rewrite <- (Rinv_inv (exp uu)), <- exp_Ropp. apply Rinv_le_contravar; [lra|]. pose proof (exp_ineq1_le (- uu)). lra. }
  induction n as [|n IH]; [cbn; rewrite Rmult_0_l, exp_0; lra|]. rewrite S_INR, Rmult_plus_distr_r, exp_plus, Rmult_1_l. change (wp (S n)) with (ww * wp n). rewrite Rmult_comm. apply Rmult_le_compat; auto; left; apply exp_pos.
Qed.
(** From a relative bound. *)
Lemma close_of k x y : INR k <= 1000000 -> 0 <= y -> Rabs (x - y) <= INR k * uu * y -> close (k + 1) x y.
Proof.
  intros K Hy H. pose proof (pos_INR k) as K0. pose proof uu_pos as U0. pose proof uu_1e15 as U.
  apply Rabs_le_inv in H. set (e := INR k * uu) in *. assert (E : 0 <= e <= / 100000) by (unfold e; split; nra).
  pose proof (wp_low k) as W. fold e in W. pose proof (wp_low (k + 1)) as W1. rewrite plus_INR in W1. change (INR 1) with 1 in W1. replace ((INR k + 1) * uu) with (e + uu) in W1 by (unfold e; ring). pose proof (wp_pos (k + 1)).
  assert (X : 0 <= x) by nra. assert (D : 1 <= (1 - e) * (1 + (e + uu))).
  { assert (e * e <= / 4 * uu). { unfold e. replace (INR k * uu * (INR k * uu)) with (INR k * INR k * uu * uu) by ring. apply Rmult_le_compat_r; [lra|]. nra. } nra. }
  split; [exact X|]. split; [exact Hy|]. split.
  - apply Rle_trans with (y * (1 + (e + uu))); [|apply Rmult_le_compat_l; lra]. nra.
  - apply Rle_trans with (x * (1 + (e + uu))); [|apply Rmult_le_compat_l; lra]. apply Rle_trans with (y * (1 - e) * (1 + (e + uu))); [|apply Rmult_le_compat_r; nra]. rewrite Rmult_assoc. rewrite <- (Rmult_1_r y) at 1. apply Rmult_le_compat_l; lra.
Qed.
Lemma close_abs n x y : tiny n -> close n x y -> Rabs (x - y) <= 1.01 * (INR n * uu) * y.
Proof.
  intros H (A & B & C & D). pose proof (wp_sharp n H) as W. pose proof (wp_1 n) as W1. set (e := 1.01 * (INR n * uu)) in *. apply Rabs_le. split; [|nra].
  assert (E0 : 0 <= e) by (unfold e; pose proof (pos_INR n); pose proof uu_pos; nra). destruct (Rle_lt_dec y x); nra.
Qed.
Lemma close_sqrt n x y : close (2 * n) x y -> close n (sqrt x) (sqrt y).
Proof.
  intros (A & B & C & D). assert (W : wp (2 * n) = wp n * wp n) by (rewrite <- wp_add; f_equal; lia). rewrite W in *. pose proof (wp_pos n) as P.
  assert (S : sqrt (wp n * wp n) = wp n) by (apply sqrt_square; lra).
  repeat split; try apply sqrt_pos; rewrite <- S at 1; rewrite <- sqrt_mult by nra; now apply sqrt_le_1_alt.
Qed.
Lemma Rpower_third n : Rpower (wp (3 * n)) (1 / 3) = wp n.
Proof.
  unfold wp. rewrite <- !Rpower_pow by (pose proof ww_1; lra). rewrite Rpower_mult. f_equal. rewrite mult_INR. cbn [INR]. field.
Qed.
Lemma Rpower_mono x y p : 0 < x <= y -> 0 <= p -> Rpower x p <= Rpower y p.
Proof. intros H Hp. now apply Rle_Rpower_l. Qed.
Lemma close_root n x y : 0 < y -> close (3 * n) x y -> close n (Rpower x (1 / 3)) (Rpower y (1 / 3)).
Proof.
  intros Hy C. pose proof (close_pos _ _ _ C Hy) as Hx. destruct C as (_ & _ & C & D). pose proof (wp_pos (3 * n)) as P.
  assert (E : forall a, 0 < a -> Rpower (a * wp (3 * n)) (1 / 3) = Rpower a (1 / 3) * wp n) by (intros a Ha; rewrite <- Rpower_mult_distr by assumption; now rewrite Rpower_third).
  repeat split; try (left; apply exp_pos); rewrite <- E by assumption; apply Rpower_mono; lra.
Qed.

(** ** A binary64 number that approximates a positive real of known size *)
Definition near (n : nat) (f : f64) (X : R) (a b : Z) : Prop := fin_nn f /\ close n (B2R f) X /\ bp a <= X <= bp b.
Lemma tiny_2 n : tiny n -> wp n <= 2.
Proof. intro H. pose proof (wp_sharp n H) as W. unfold tiny in H. pose proof uu_1e15. pose proof uu_pos. pose proof (pos_INR n). assert (INR n * uu <= / 1000) by nra. lra. Qed.
Lemma near_size n f X a b : tiny n -> near n f X a b -> bp (a - 1) <= B2R f <= bp (b + 1).
Proof.
  intros T (_ & (_ & _ & C & D) & H). pose proof (tiny_2 n T). pose proof (wp_1 n). pose proof (bp_pos a). replace (bp (a - 1)) with (bp a / 2) by (rewrite <- bp_1, bp_div; reflexivity). replace (bp (b + 1)) with (bp b * 2) by (rewrite <- bp_1, bp_mul; reflexivity). split; nra.
Qed.
Lemma near_weaken n m f X a b a' b' : (n <= m)%nat -> (a' <= a)%Z -> (b <= b')%Z -> near n f X a b -> near m f X a' b'.
Proof. intros H A B (F & C & S). split; [exact F|]. split; [now apply (close_weaken n)|]. pose proof (bpow_le radix2 _ _ A). pose proof (bpow_le radix2 _ _ B). lra. Qed.
Lemma near_mul n m x y X Y a b c d : near n x X a b -> near m y Y c d -> tiny n -> tiny m -> (-1000 <= a + c)%Z -> (b + d <= 1000)%Z ->
  near (n + m + 1) (fmul x y) (X * Y) (a + c) (b + d).
Proof.
  intros Hx Hy T1 T2 L1 L2. pose proof (near_size _ _ _ _ _ T1 Hx) as Sx. pose proof (near_size _ _ _ _ _ T2 Hy) as Sy. destruct Hx as (Fx & Cx & Bx), Hy as (Fy & Cy & By).
  assert (N : normal (B2R x * B2R y)).
  { apply (normal_of _ (a - 1 + (c - 1)) (b + 1 + (d + 1))); [|lia|lia]. rewrite <- (bp_mul (a - 1) (c - 1)), <- (bp_mul (b + 1) (d + 1)). pose proof (bp_pos (a - 1)). pose proof (bp_pos (c - 1)). split; apply Rmult_le_compat; lra. }
  destruct (fmul_close x y Fx Fy N) as [F C]. split; [exact F|]. split.
  - rewrite Nat.add_comm. eapply close_trans; [exact C|]. now apply close_mult.
  - rewrite <- (bp_mul a c), <- (bp_mul b d). pose proof (bp_pos a). pose proof (bp_pos c). split; apply Rmult_le_compat; lra.
Qed.
Lemma div_size X Y a b c d : bp a <= X <= bp b -> bp c <= Y <= bp d -> bp (a - d) <= X / Y <= bp (b - c).
Proof.
  intros Bx By. rewrite <- (bp_div a d), <- (bp_div b c). pose proof (bp_pos a). pose proof (bp_pos c). unfold Rdiv. split; apply Rmult_le_compat; try lra; try (left; apply Rinv_0_lt_compat; lra); try (apply Rinv_le_contravar; lra).
Qed.
Lemma near_div n m x y X Y a b c d : near n x X a b -> near m y Y c d -> tiny n -> tiny m -> (-1000 <= a - d)%Z -> (b - c <= 1000)%Z ->
  near (n + m + 1) (fdiv x y) (X / Y) (a - d) (b - c).
Proof.
  intros Hx Hy T1 T2 L1 L2. pose proof (near_size _ _ _ _ _ T1 Hx) as Sx. pose proof (near_size _ _ _ _ _ T2 Hy) as Sy. destruct Hx as (Fx & Cx & Bx), Hy as (Fy & Cy & By).
  pose proof (bp_pos (c - 1)). pose proof (bp_pos c).
  assert (N : normal (B2R x / B2R y)) by (apply (normal_of _ (a - 1 - (d + 1)) (b + 1 - (c - 1))); [now apply div_size|lia|lia]).
  destruct (fdiv_close x y Fx Fy ltac:(lra) N) as [F C]. split; [exact F|]. split; [|now apply div_size].
  rewrite Nat.add_comm. eapply close_trans; [exact C|]. apply close_div; try assumption. lra.
Qed.
Lemma near_sqrt n x X a b : tiny (2 * n) -> near (2 * n) x X (2 * a) (2 * b) -> (-400 <= a)%Z -> (b <= 400)%Z -> near (n + 1) (fsqrt x) (sqrt X) a b.
Proof.
  intros T Hx L1 L2. pose proof (near_size _ _ _ _ _ T Hx) as Sx. destruct Hx as (Fx & Cx & Bx). pose proof (bp_pos (2 * a - 1)).
  pose proof (Bsqrt_correct 53 1024 Hprec64 Hmax64 mode_NE x) as (E & F & _). rewrite fexp64 in E. change (round_mode mode_NE) with ZnearestE in E. fold (fsqrt x) in E, F.
  assert (S : forall e, sqrt (bp (2 * e)) = bp e) by (intro e; replace (2 * e)%Z with (e + e)%Z by lia; rewrite bpow_plus; apply sqrt_square; left; apply bp_pos).
  assert (R1 : bp (a - 1) <= sqrt (B2R x)) by (rewrite <- S; apply sqrt_le_1_alt; eapply Rle_trans; [|apply Sx]; apply bpow_le; lia).
  assert (C : close 1 (B2R (fsqrt x)) (sqrt (B2R x))) by (rewrite E; apply rnd_close; right; eapply Rle_trans; [|exact R1]; apply bpow_le; lia).
  split; [split; [|apply C]|split].
  - rewrite F. destruct Fx as [F' _]. destruct x as [s|s| |s m e B]; try discriminate F'; [reflexivity|]. destruct s; [|reflexivity].
    exfalso. destruct Sx as [Sx _]. assert (B2R (B754_finite true m e B : f64) < 0); [|lra]. apply F2R_lt_0. reflexivity.
  - rewrite Nat.add_comm. eapply close_trans; [exact C|]. now apply close_sqrt.
  - rewrite <- (S a), <- (S b). split; apply sqrt_le_1_alt; lra.
Qed.
Lemma near_exact (f : f64) a b : is_finite f = true -> bp a <= B2R f <= bp b -> near 0 f (B2R f) a b.
Proof. intros F H. pose proof (bp_pos a). split; [split; [exact F|lra]|]. split; [apply close_refl; lra|exact H]. Qed.
Lemma four_close (f : f64) y : 0 <= y -> four_ulp f y -> fin_nn f /\ close 9 (B2R f) y.
Proof.
  intros Hy [F H]. assert (C : close (8 + 1) (B2R f) y).
  { apply close_of; [cbn; lra|exact Hy|]. replace (INR 8 * uu * y) with (8 / 2 ^ 53 * y); [exact H|]. rewrite uu_val. rewrite (pow_IZR 2 53). change (Z.of_nat 53) with 53%Z. replace (INR 8) with 8 by (cbn; lra). unfold Rdiv. ring. }
  split; [split; [exact F|apply C]|exact C].
Qed.

(** Literals *)
Lemma pow10_exact k : (0 <= k <= 22)%Z -> let p := binary_normalize 53 1024 Hprec64 Hmax64 mode_NE (5 ^ k) k false in is_finite p = true /\ B2R p = IZR (10 ^ k).
Proof.
  intros Hk p. destruct (normalize_exact (5 ^ k) k false) as [A B]; [|lia|].
  - rewrite Z.abs_eq by (apply Z.pow_nonneg; lia). apply Z.le_lt_trans with (5 ^ 22)%Z; [apply Z.pow_le_mono_r; lia|vm_compute; reflexivity].
  - split; [exact A|]. unfold p. rewrite B. rewrite <- (IZR_Zpower radix2) by lia. change (radix2 ^ k)%Z with (2 ^ k)%Z. rewrite <- mult_IZR. f_equal. change 10%Z with (5 * 2)%Z. symmetry. apply Z.pow_mul_l.
Qed.
Lemma dec64_value n k : (Z.abs n < 2 ^ 53)%Z -> (0 <= k <= 22)%Z -> is_finite (dec64 n k) = true /\ B2R (dec64 n k) = rnd (IZR n / IZR (10 ^ k)).
Proof.
  intros Hn Hk. destruct (f64_of_Z_exact n Hn) as [F V]. destruct (pow10_exact k Hk) as [F2 V2]. cbv zeta in F2, V2. unfold dec64. set (p := binary_normalize _ _ _ _ _ _ _ _) in *. clearbody p.
  assert (P : (1 <= 10 ^ k)%Z) by (assert (0 < 10 ^ k)%Z by (apply Z.pow_pos_nonneg; lia); lia). apply IZR_le in P. assert (N : B2R p <> 0) by lra.
  pose proof (Bdiv_correct 53 1024 Hprec64 Hmax64 mode_NE (f64_of_Z n) p N) as H. rewrite fexp64 in H. change (round_mode mode_NE) with ZnearestE in H. rewrite V, V2 in H.
  rewrite Rlt_bool_true in H. 2:{ assert (Q : Rabs (IZR n / IZR (10 ^ k)) <= bp 53).
    { unfold Rdiv. rewrite Rabs_mult, <- abs_IZR. rewrite (Rabs_pos_eq (/ _)) by (left; apply Rinv_0_lt_compat; lra). apply Rle_trans with (IZR (Z.abs n) * 1).
      - apply Rmult_le_compat_l; [apply IZR_le; lia|]. rewrite <- Rinv_1. apply Rinv_le_contravar; lra.
      - rewrite Rmult_1_r. change (bp 53) with (IZR (2 ^ 53)). apply IZR_le. lia. }
    destruct (Rle_lt_dec 0 (IZR n / IZR (10 ^ k))) as [G|G].
    - apply rnd_top. split; [exact G|]. eapply Rle_trans; [apply Rle_abs|]. eapply Rle_trans; [exact Q|]. apply bpow_le. lia.
    - assert (O : rnd (IZR n / IZR (10 ^ k)) = - rnd (- (IZR n / IZR (10 ^ k)))) by (rewrite <- (Ropp_involutive (IZR n / IZR (10 ^ k))) at 1; apply round_NE_opp).
      change (Rabs (rnd (IZR n / IZR (10 ^ k))) < bp 1024). rewrite O, Rabs_Ropp. apply rnd_top. split; [lra|]. eapply Rle_trans; [apply Rle_abs|]. rewrite Rabs_Ropp. eapply Rle_trans; [exact Q|]. apply bpow_le. lia. }
  destruct H as (E & Fi & _). split; [unfold fdiv; now rewrite Fi|]. unfold fdiv. exact E.
Qed.
Lemma rnd_rel x : bp (-1022) <= Rabs x -> Rabs (rnd x - x) <= uu * Rabs x.
Proof.
  intro H. pose proof (relative_error_N_FLT radix2 (-1074) 53 eq_refl (fun z => negb (Z.even z)) x H) as E.
  replace (/ 2 * bpow radix2 (- (53) + 1)) with uu in E by (rewrite <- u_ro_uu; reflexivity). exact E.
Qed.
Lemma near_lit n k X a b : (0 < n < 2 ^ 53)%Z -> (0 <= k <= 22)%Z -> X = IZR n / IZR (10 ^ k) -> (-1000 <= a)%Z -> bp a <= X <= bp b -> near 1 (dec64 n k) X a b.
Proof.
  intros Hn Hk -> Ha B. destruct (dec64_value n k ltac:(lia) Hk) as [F V]. pose proof (bpow_le radix2 (-1022) a ltac:(lia)).
  assert (C : close 1 (B2R (dec64 n k)) (IZR n / IZR (10 ^ k))) by (rewrite V; apply rnd_close; right; lra).
  split; [split; [exact F|apply C]|]. split; [exact C|exact B].
Qed.

(** ** Numbers of any sign, with the error relative to a size M *)
Definition mag (j : Z) (k M : R) (f : f64) (x : R) : Prop :=
  is_finite f = true /\ Rabs (B2R f - x) <= k * (uu * M) /\ Rabs x <= M /\ bp (- j) <= M <= bp j.
Lemma mag_size j k M f x : 0 <= k <= 100 -> mag j k M f x -> Rabs (B2R f) <= 1.001 * M.
Proof.
  intros Hk (_ & E & S & B). pose proof (bp_pos (- j)). pose proof uu_1e15. pose proof uu_pos. replace (B2R f) with ((B2R f - x) + x) by ring. eapply Rle_trans; [apply Rabs_triang|].
  assert (k * (uu * M) <= / 1000 * M); [|lra]. rewrite <- Rmult_assoc. apply Rmult_le_compat_r; [lra|]. nra.
Qed.
Lemma scale_mag j M : (j <= 199)%Z -> bp (- j) <= M <= bp j -> scale M.
Proof. intros Hj B. pose proof (bpow_le radix2 (-200) (- j) ltac:(lia)). pose proof (bpow_le radix2 j 200 ltac:(lia)). unfold scale. lra. Qed.
Lemma K_ok : 1 <= 1.001 <= bp 30.
Proof. assert (bp 1 <= bp 30) by (apply bpow_le; lia). rewrite bp_1 in *. lra. Qed.
Lemma mag_mul j k M (t : f64) f x : is_finite t = true -> bp (-10) <= B2R t <= bp 10 -> 0 <= k <= 100 -> (j <= 180)%Z -> mag j k M f x ->
  mag (j + 10) (k + 1.001) (B2R t * M) (fmul t f) (B2R t * x).
Proof.
  intros Ft Bt Hk Hj H. pose proof (mag_size _ _ _ _ _ Hk H) as S. destruct H as (F & E & X & B). set (T := B2R t) in *. pose proof (bp_pos (-10)) as P. pose proof uu_pos as U.
  assert (BM : bp (- (j + 10)) <= T * M <= bp (j + 10)).
  { replace (- (j + 10))%Z with (-10 + - j)%Z by lia. replace (j + 10)%Z with (10 + j)%Z by lia. rewrite <- (bp_mul (-10)), <- (bp_mul 10). pose proof (bp_pos (- j)). split; apply Rmult_le_compat; lra. }
  pose proof (bp_pos (- j)) as P2.
  assert (L : Rabs (T * B2R f) <= 1.001 * (T * M)) by (rewrite Rabs_mult, (Rabs_pos_eq T) by lra; replace (1.001 * (T * M)) with (T * (1.001 * M)) by ring; apply Rmult_le_compat_l; lra).
  destruct (fmul_about (T * M) 1.001 t f (scale_mag (j + 10) _ ltac:(lia) BM) K_ok Ft F L) as [F2 E2]. fold T in E2. split; [exact F2|]. split; [|split; [|exact BM]].
  - replace (B2R (fmul t f) - T * x) with ((B2R (fmul t f) - T * B2R f) + T * (B2R f - x)) by ring. eapply Rle_trans; [apply Rabs_triang|]. rewrite (Rabs_mult T), (Rabs_pos_eq T) by lra.
    assert (T * Rabs (B2R f - x) <= T * (k * (uu * M))) by (apply Rmult_le_compat_l; lra). lra.
  - rewrite Rabs_mult, (Rabs_pos_eq T) by lra. apply Rmult_le_compat_l; lra.
Qed.
Lemma mag_add j k M N (g : f64) y f x : 0 <= k <= 100 -> (j <= 180)%Z -> mag j k N g y -> mag j k M f x ->
  mag (j + 1) (k + 1.001) (N + M) (fadd g f) (y + x).
Proof.
  intros Hk Hj G H. pose proof (mag_size _ _ _ _ _ Hk H) as S. pose proof (mag_size _ _ _ _ _ Hk G) as S2. destruct H as (F & E & X & B), G as (F2 & E2 & X2 & B2). pose proof (bp_pos (- j)) as P.
  assert (BM : bp (- (j + 1)) <= N + M <= bp (j + 1)).
  { replace (bp (- (j + 1))) with (bp (- j) / 2) by (rewrite <- bp_1, bp_div; f_equal; lia). replace (bp (j + 1)) with (bp j * 2) by (rewrite <- bp_1, bp_mul; reflexivity). lra. }
  assert (L : Rabs (B2R g + B2R f) <= 1.001 * (N + M)) by (eapply Rle_trans; [apply Rabs_triang|lra]).
  destruct (fadd_about (N + M) 1.001 g f (scale_mag (j + 1) _ ltac:(lia) BM) K_ok F2 F L) as [F3 E3]. split; [exact F3|]. split; [|split; [|exact BM]].
  - replace (B2R (fadd g f) - (y + x)) with ((B2R (fadd g f) - (B2R g + B2R f)) + ((B2R g - y) + (B2R f - x))) by ring. eapply Rle_trans; [apply Rabs_triang|]. pose proof (Rabs_triang (B2R g - y) (B2R f - x)). lra.
  - eapply Rle_trans; [apply Rabs_triang|lra].
Qed.
Lemma mag_weaken j k j' k' M f x : (j <= j')%Z -> k <= k' -> mag j k M f x -> mag j' k' M f x.
Proof.
  intros Hj Hk (F & E & X & B). split; [exact F|]. pose proof (bp_pos (- j)). pose proof uu_pos. split; [|split; [exact X|]].
  - eapply Rle_trans; [exact E|]. apply Rmult_le_compat_r; [nra|exact Hk].
  - pose proof (bpow_le radix2 (- j') (- j) ltac:(lia)). pose proof (bpow_le radix2 j j' ltac:(lia)). lra.
Qed.
(** T * (a + T * (b + T * c)) *)
Lemma mag_horner (t a b c : f64) A B C MA MB MC : is_finite t = true -> bp (-10) <= B2R t <= bp 10 ->
  mag 40 1 MA a A -> mag 40 1 MB b B -> mag 40 1 MC c C ->
  mag 80 6.005 (B2R t * (MA + B2R t * (MB + B2R t * MC))) (fmul t (fadd a (fmul t (fadd b (fmul t c))))) (B2R t * (A + B2R t * (B + B2R t * C))).
Proof.
  intros Ft Bt Ha Hb Hc.
  pose proof (mag_mul 40 1 _ t c C Ft Bt ltac:(lra) ltac:(lia) Hc) as H1.
  apply (mag_weaken 40 1 50 2.001) in Hb; [|lia|lra]. apply (mag_weaken (40 + 10) (1 + 1.001) 50 2.001) in H1; [|lia|lra].
  pose proof (mag_add 50 2.001 _ _ b B _ _ ltac:(lra) ltac:(lia) Hb H1) as H2.
  pose proof (mag_mul (50 + 1) (2.001 + 1.001) _ t _ _ Ft Bt ltac:(lra) ltac:(lia) H2) as H3.
  apply (mag_weaken 40 1 61 4.003) in Ha; [|lia|lra]. apply (mag_weaken (50 + 1 + 10) (2.001 + 1.001 + 1.001) 61 4.003) in H3; [|lia|lra].
  pose proof (mag_add 61 4.003 _ _ a A _ _ ltac:(lra) ltac:(lia) Ha H3) as H4.
  pose proof (mag_mul (61 + 1) (4.003 + 1.001) _ t _ _ Ft Bt ltac:(lra) ltac:(lia) H4) as H5.
  eapply mag_weaken; [| |exact H5]; [lia|lra].
Qed.
Lemma mag_lit n k X M : (Z.abs n < 2 ^ 53)%Z -> (0 <= k <= 22)%Z -> X = IZR n / IZR (10 ^ k) -> Rabs X <= M -> bp (-40) <= Rabs X -> M <= bp 40 -> mag 40 1 M (dec64 n k) X.
Proof.
  intros Hn Hk -> HX HM HM2. destruct (dec64_value n k Hn Hk) as [F V]. split; [exact F|]. split; [|split; [exact HX|split; [change (- (40))%Z with (-40)%Z; lra|exact HM2]]].
  rewrite V. rewrite Rmult_1_l. eapply Rle_trans; [apply rnd_rel|].
  - pose proof (bpow_le radix2 (-1022) (-40) ltac:(lia)). lra.
  - apply Rmult_le_compat_l; [|exact HX]. left. apply uu_pos.
Qed.
Lemma mag_zero M : bp (-40) <= M <= bp 40 -> mag 40 1 M f0 0.
Proof. intro H. split; [reflexivity|]. change (B2R f0) with 0. rewrite Rminus_0_r, Rabs_R0. pose proof (bp_pos (-40)). pose proof uu_pos. split; [nra|]. split; [lra|exact H]. Qed.

(** The denominator 1 - frac. *)
Lemma f1_value : is_finite f1 = true /\ B2R f1 = 1.
Proof. split; [reflexivity|]. unfold f1. now rewrite Bone_correct. Qed.
Lemma one_minus_frac (num : f64) (poly : f64) N P NM PM : mag 80 6.005 NM num N -> mag 80 6.005 PM poly P ->
  let D := 1 + P in 1 <= D -> 1 + PM <= 1.1 * D -> NM <= 2 * D -> - (1 / 2) * D <= N <= 1 / 2 * D -> D <= bp 80 ->
  near 39 (fsub f1 (fdiv num (fadd f1 poly))) (1 - N / D) (-1) 1.
Proof.
  intros HN HP D D1 HD HNM HF DM. pose proof uu_pos as U0. pose proof uu_1e15 as U. destruct f1_value as [F1 V1].
  assert (One : mag 80 6.005 1 f1 1).
  { split; [exact F1|]. rewrite V1, Rminus_diag_eq, Rabs_R0 by reflexivity. split; [nra|]. rewrite Rabs_R1. split; [lra|]. change 1 with (bp 0). split; apply bpow_le; lia. }
  pose proof (mag_add 80 6.005 PM 1 f1 1 poly P ltac:(lra) ltac:(lia) One HP) as HDe. fold D in HDe. set (den := fadd f1 poly) in *. clearbody den.
  destruct HDe as (Fd & Ed & _ & _). destruct HN as (Fn & En & Xn & Bn).
  assert (Ed' : Rabs (B2R den - D) <= 7.71 * uu * D). { eapply Rle_trans; [exact Ed|]. replace ((6.005 + 1.001) * (uu * (1 + PM))) with (7.006 * uu * (1 + PM)) by lra. apply Rle_trans with (7.006 * uu * (1.1 * D)); [apply Rmult_le_compat_l; lra|]. nra. }
  assert (En' : Rabs (B2R num - N) <= 12.01 * uu * D) by (eapply Rle_trans; [exact En|]; nra).
  pose proof (Rabs_le_inv _ _ Ed') as Ed2. set (de := B2R den) in *. set (nu := B2R num) in *.
  assert (Hde : 0.999 * D <= de) by (assert (7.71 * uu * D <= / 1000 * D) by (apply Rmult_le_compat_r; lra); lra).
  assert (Dpos : 0 < D) by lra. assert (depos : 0 < de) by lra. set (F := N / D). assert (NF : N = F * D) by (unfold F; field; lra). assert (HFF : - (1 / 2) <= F <= 1 / 2).
  { split; apply (Rmult_le_reg_r D); try lra. }
  assert (Eq : Rabs (nu / de - F) <= 16 * uu).
  { replace (nu / de - F) with ((nu - N) / de - F * (de - D) / de) by (rewrite NF; field; lra). eapply Rle_trans; [apply Rabs_triang|]. rewrite Rabs_Ropp. unfold Rdiv. rewrite !Rabs_mult, (Rabs_pos_eq (/ de)) by (left; now apply Rinv_0_lt_compat). rewrite <- Rmult_plus_distr_r.
    apply (Rmult_le_reg_r de); [exact depos|]. rewrite Rmult_assoc, Rinv_l, Rmult_1_r by lra. assert (Rabs F <= 1 / 2) by (apply Rabs_le; lra). pose proof (Rabs_pos F). pose proof (Rabs_pos (de - D)).
    assert (Rabs F * Rabs (de - D) <= 1 / 2 * (7.71 * uu * D)) by (apply Rmult_le_compat; lra). apply Rle_trans with (15.87 * uu * D); [lra|]. assert (15.87 * uu * D <= 16 * uu * (0.999 * D)) by nra. assert (16 * uu * (0.999 * D) <= 16 * uu * de) by (apply Rmult_le_compat_l; lra). lra. }
  assert (S1 : scale 1) by (unfold scale; change 1 with (bp 0); split; apply bpow_le; lia).
  assert (B2 : 1 <= 2 <= bp 30) by (assert (bp 1 <= bp 30) by (apply bpow_le; lia); rewrite bp_1 in *; lra). assert (B1 : 1 <= 1 <= bp 30) by lra.
  assert (Q1 : Rabs (nu / de) <= 1 * 1). { replace (nu / de) with ((nu / de - F) + F) by ring. eapply Rle_trans; [apply Rabs_triang|]. assert (Rabs F <= 1 / 2) by (apply Rabs_le; lra). lra. }
  destruct (fdiv_about 1 1 num den S1 B1 Fn Fd ltac:(fold de; lra) Q1) as [Fq Eq2]. fold nu de in Eq2. set (q := fdiv num den) in *. clearbody q.
  assert (Eq3 : Rabs (B2R q - F) <= 17 * uu) by (replace (B2R q - F) with ((B2R q - nu / de) + (nu / de - F)) by ring; eapply Rle_trans; [apply Rabs_triang|]; lra).
  pose proof (Rabs_le_inv _ _ Eq3) as Eq4.
  assert (Q2 : Rabs (B2R f1 - B2R q) <= 2 * 1) by (rewrite V1; apply Rabs_le; lra).
  destruct (fsub_about 1 2 f1 q S1 B2 F1 Fq Q2) as [Fs Es]. rewrite V1 in Es.
  assert (Es2 : Rabs (B2R (fsub f1 q) - (1 - F)) <= 19 * uu) by (replace (B2R (fsub f1 q) - (1 - F)) with ((B2R (fsub f1 q) - (1 - B2R q)) + (F - B2R q)) by ring; eapply Rle_trans; [apply Rabs_triang|]; rewrite (Rabs_minus_sym F); lra).
  assert (C : close (38 + 1) (B2R (fsub f1 q)) (1 - F)).
  { apply close_of; [cbn; lra|lra|]. eapply Rle_trans; [exact Es2|]. replace (INR 38) with 38 by (rewrite INR_IZR_INZ; reflexivity). nra. }
  split; [split; [exact Fs|apply C]|]. split; [exact C|]. change (bp (-1)) with (/ 2). change (bp 1) with 2. fold F. lra.
Qed.

(** ** The whole fit at one temperature *)
Lemma near_int n a b : (0 < n < 2 ^ 53)%Z -> bp a <= IZR n <= bp b -> near 0 (f64_of_Z n) (IZR n) a b.
Proof. intros Hn B. destruct (f64_of_Z_exact n ltac:(lia)) as [F V]. pose proof (near_exact _ a b F) as N. rewrite V in N. now apply N. Qed.
Lemma tiny_of n z : (Z.of_nat n <= z)%Z -> (z <= 100000)%Z -> tiny n.
Proof. intros H1 H2. unfold tiny. rewrite INR_IZR_INZ. apply IZR_le. lia. Qed.
Ltac tn := (eapply tiny_of; [apply Z.le_refl|vm_compute; discriminate]).
Lemma third_value : let y := fdiv f1 (f64_of_Z 3) in is_finite y = true /\ Rabs (B2R y - 1 / 3) <= uu / 3.
Proof.
  intro y. destruct f1_value as [F1 V1]. destruct (f64_of_Z_exact 3 ltac:(lia)) as [F3 V3].
  pose proof (Bdiv_correct 53 1024 Hprec64 Hmax64 mode_NE f1 (f64_of_Z 3) ltac:(rewrite V3; lra)) as H. rewrite fexp64 in H. change (round_mode mode_NE) with ZnearestE in H. rewrite V1, V3 in H.
  rewrite Rlt_bool_true in H. 2:{ apply rnd_top. split; [lra|]. apply Rle_trans with (bp 0); [change (bp 0) with 1; lra|apply bpow_le; lia]. }
  destruct H as (E & F & _). split; [unfold y, fdiv; now rewrite F|]. unfold y, fdiv. change (round radix2 (FLT_exp (-1074) 53) ZnearestE (1 / 3)) with (rnd (1 / 3)) in E. rewrite E.
  eapply Rle_trans; [apply rnd_rel|]; rewrite (Rabs_pos_eq (1 / 3)) by lra; [|lra]. apply Rle_trans with (bp (-2)); [apply bpow_le; lia|]. change (bp (-2)) with (/ 4). lra.
Qed.
Lemma Rpower_2 x : 0 < x -> Rpower x 2 = x * x.
Proof. intro H. replace 2 with (INR 2) by (cbn; lra). rewrite Rpower_pow by exact H. ring. Qed.
Lemma Rpower_3 x : 0 < x -> Rpower x 3 = x * x * x.
Proof. intro H. replace 3 with (INR 3) by (cbn; lra). rewrite Rpower_pow by exact H. ring. Qed.
Lemma two_1000 x a b : bp a <= x <= bp b -> (-1000 <= a)%Z -> (b <= 1000)%Z -> two (-1000) <= x <= two 1000.
Proof. intros H A B. rewrite !two_bpow. pose proof (bpow_le radix2 _ _ A). pose proof (bpow_le radix2 _ _ B). lra. Qed.
Lemma exp_low n : bp (- (2 * Z.of_nat n)) <= exp (- INR n).
Proof.
  induction n as [|n IH]; [cbn; rewrite Ropp_0, exp_0; lra|]. rewrite S_INR. replace (- (INR n + 1)) with (- INR n + Ropp 1) by ring. rewrite exp_plus.
  replace (- (2 * Z.of_nat (S n)))%Z with (- (2 * Z.of_nat n) + -2)%Z by lia. rewrite <- (bp_mul (- (2 * Z.of_nat n)) (-2)). apply Rmult_le_compat; try (left; apply bp_pos); [exact IH|].
  rewrite exp_Ropp. change (bp (-2)) with (/ 4). apply Rinv_le_contravar; [apply exp_pos|]. pose proof exp_le_3. lra.
Qed.

Definition nexp : nat := Z.to_nat 8300.
Lemma nexp_INR : INR nexp = 8300.
Proof. unfold nexp. rewrite INR_IZR_INZ, Z2Nat.id by lia. reflexivity. Qed.
Lemma nexp_tiny k : (k <= 100)%nat -> tiny (nexp + k).
Proof. intro H. unfold tiny. rewrite plus_INR, nexp_INR. apply le_INR in H. replace (INR 100) with 100 in H by (rewrite INR_IZR_INZ; reflexivity). lra. Qed.
Global Opaque nexp.

Section Point.
  Variables (spow vpow : f64 -> f64 -> f64) (vexp : f64 -> f64).
  Hypotheses (Sp : good_pow spow) (Vp : good_pow vpow) (Ve : good_exp vexp).
  Variables (d64 : bh64) (d : bh_coeffs) (t : f64).
  Hypotheses (Ft : is_finite t = true) (Ht : 0.001 <= B2R t <= 100).
  Let T := B2R t.
  Let F := bhN d T / bhD d T.
  Let om := fsub f1 (fdiv (fmul t (fadd (c1_64 d64) (fmul t (fadd (c3_64 d64) (fmul t (c5_64 d64))))))
                     (fadd f1 (fmul t (fadd (c2_64 d64) (fmul t (fadd (c4_64 d64) (fmul t (c6_64 d64)))))))).
  Hypotheses (Hom : near 39 om (1 - F) (-1) 1) (HF : 1 / 2 <= 1 - F <= 3 / 2).
  Hypotheses (Hbg : near 1 (bg64 d64) (bg d) 4 6) (Hbg2 : 31 <= bg d <= 35).
  Hypotheses (Hm : near 0 (mrc264 d64) (mrc2 d) 19 21) (Hc0 : near 1 (c0_64 d64) (c0 d) (-38) (-29)).

  Lemma point64 : near (nexp + 79) (bh_point64 spow vpow vexp d64 t) (fit_of d T / 1000000) (-558) (-31).
  Proof.
    pose proof uu_pos as U0. pose proof uu_1e15 as U. fold T in Ht.
    assert (NT : near 0 t T (-10) 7).
    { apply near_exact; [exact Ft|]. fold T. split; [apply Rle_trans with 0.001; [|lra]|apply Rle_trans with 100; [lra|]].
      - change (bp (-10)) with (/ 1024). lra.
      - change (bp 7) with 128. lra. }
    pose proof (near_div _ _ _ _ _ _ _ _ _ _ NT Hom) as Nth. specialize (Nth ltac:(tn) ltac:(tn) ltac:(lia) ltac:(lia)). fold om.
    set (theta := fdiv t om) in *. set (th := T / (1 - F)) in *. cbn [Nat.add] in Nth. assert (Pth : 0 < th) by (unfold th; apply Rdiv_lt_0_compat; lra).
    assert (Bth : 0.001 / 1.5 <= th <= 200).
    { assert (E : th * (1 - F) = T) by (unfold th; field; lra). clearbody th. split; nra. }
    pose proof (near_mul _ _ _ _ _ _ _ _ _ _ (near_int 4 2 2 ltac:(lia) ltac:(change (bp 2) with 4; lra)) Nth) as N4. specialize (N4 ltac:(tn) ltac:(tn) ltac:(lia) ltac:(lia)). cbn [Nat.add] in N4.
    (* bg ** 2 *)
    assert (Nb : near 11 (spow (bg64 d64) f2) (bg d * bg d) 8 12).
    { pose proof (near_size 1 _ _ _ _ ltac:(tn) Hbg) as Sb. destruct Hbg as ([Fb Pb] & Cb & Bb). destruct (f64_of_Z_exact 2 ltac:(lia)) as [F2 V2]. fold f2 in F2, V2. change (bp (4 - 1)) with 8 in Sb. change (bp (6 + 1)) with 128 in Sb.
      assert (P : 0 < B2R (bg64 d64)) by lra. specialize (Sp (bg64 d64) f2 Fb F2 P). rewrite V2, Rpower_2 in Sp by exact P.
      assert (Q : bp 6 <= B2R (bg64 d64) * B2R (bg64 d64) <= bp 14) by (change (bp 6) with 64; change (bp 14) with 16384; nra).
      specialize (Sp (two_1000 _ 6 14 Q ltac:(lia) ltac:(lia))). apply four_close in Sp; [|nra]. destruct Sp as [G1 G2]. split; [exact G1|]. split.
      - change 11%nat with (9 + (1 + 1))%nat. eapply close_trans; [exact G2|]. now apply close_mult.
      - change (bp 8) with 256. change (bp 12) with 4096. nra. }
    pose proof (near_div _ _ _ _ _ _ _ _ _ _ Nb N4) as Nq. specialize (Nq ltac:(tn) ltac:(tn) ltac:(lia) ltac:(lia)). cbn [Nat.add] in Nq.
    set (q := fdiv (spow (bg64 d64) f2) (fmul (f64_of_Z 4) theta)) in *. set (q0 := bg d * bg d / (4 * th)) in *.
    assert (Bq : 1.2 <= q0 <= 78 * 78 * 78).
    { unfold q0. split; apply (Rmult_le_reg_r (4 * th)); try lra; unfold Rdiv; rewrite Rmult_assoc, Rinv_l by lra; nra. }
    assert (Cq : close 54 (B2R q) q0) by (apply (close_weaken 53); [lia|apply Nq]).
    assert (Bq2 : 1 <= B2R q <= bp 20).
    { destruct Cq as (_ & _ & C1 & C2). pose proof (wp_sharp 54 ltac:(tn)) as W. replace (INR 54) with 54 in W by (rewrite INR_IZR_INZ; reflexivity). assert (wp 54 <= 1.01) by lra. pose proof (wp_1 54). change (bp 20) with 1048576. split; nra. }
    (* chi *)
    destruct third_value as [Fy Ey]. cbv zeta in Fy, Ey. set (y := fdiv f1 (f64_of_Z 3)) in *. pose proof (Rabs_le_inv _ _ Ey) as Ey2.
    set (chi := vpow q y) in *. set (x0 := Rpower q0 (1 / 3)) in *.
    assert (Lq : 0 <= ln (B2R q) <= 20).
    { split; [rewrite <- ln_1; destruct (proj1 Bq2) as [H|H]; [left; apply ln_increasing; lra|right; now rewrite H]|].
      apply Rle_trans with (ln (bp 20)); [destruct (proj2 Bq2) as [H|H]; [left; apply ln_increasing; lra|right; now rewrite H]|]. replace (bp 20) with (2 ^ 20) by (change (bp 20) with 1048576; lra). rewrite ln_pow by lra. replace (INR 20) with 20 by (rewrite INR_IZR_INZ; reflexivity). assert (ln 2 <= 1); [|lra].
      rewrite <- (ln_exp 1). left. apply ln_increasing; [lra|]. pose proof (exp_ineq1 1 ltac:(lra)). lra. }
    assert (Bx0 : 1 <= x0 <= 78).
    { split.
      - rewrite <- (Rpower_O q0) by lra. apply Rle_Rpower; lra.
      - replace 78 with (Rpower (Rpower 78 3) (1 / 3)) by (rewrite Rpower_mult; replace (3 * (1 / 3)) with 1 by lra; apply Rpower_1; lra). apply Rpower_mono; [|lra]. rewrite Rpower_3 by lra. lra. }
    assert (C1 : close 7 (Rpower (B2R q) (B2R y)) (Rpower (B2R q) (1 / 3))).
    { assert (E : forall p p', Rabs (p - p') <= uu / 3 -> Rpower (B2R q) p <= Rpower (B2R q) p' * wp 7).
      { intros p p' H. unfold Rpower. replace (p * ln (B2R q)) with (p' * ln (B2R q) + (p - p') * ln (B2R q)) by ring. rewrite exp_plus. apply Rmult_le_compat_l; [left; apply exp_pos|]. apply exp_wp. replace (INR 7) with 7 by (rewrite INR_IZR_INZ; reflexivity). apply Rabs_le_inv in H. nra. }
      split; [left; apply exp_pos|]. split; [left; apply exp_pos|]. split; apply E; [exact Ey|now rewrite Rabs_minus_sym]. }
    assert (C2 : close 18 (Rpower (B2R q) (1 / 3)) x0) by (apply close_root; [lra|exact Cq]).
    pose proof (close_trans _ _ _ _ _ C1 C2) as C3. cbn [Nat.add] in C3.
    assert (Nchi : near 34 chi x0 0 7).
    { destruct Nq as ([Fq _] & _). specialize (Vp q y Fq Fy ltac:(lra)). assert (B : bp (-1) <= Rpower (B2R q) (B2R y) <= bp 8).
      { destruct C3 as (_ & _ & A1 & A2). pose proof (tiny_2 25 ltac:(tn)). pose proof (wp_1 25). change (bp (-1)) with (/ 2). change (bp 8) with 256. split; nra. }
      specialize (Vp (two_1000 _ _ _ B ltac:(lia) ltac:(lia))). fold chi in Vp. apply four_close in Vp; [|left; apply exp_pos]. destruct Vp as [G1 G2]. split; [exact G1|]. split; [change 34%nat with (9 + 25)%nat; eapply close_trans; [exact G2|exact C3]|]. change (bp 0) with 1. change (bp 7) with 128. lra. }
    (* T ** 3 and the root *)
    assert (N3 : near 9 (vpow t (f64_of_Z 3)) (T * T * T) (-30) 21).
    { destruct (f64_of_Z_exact 3 ltac:(lia)) as [F3 V3]. specialize (Vp t (f64_of_Z 3) Ft F3 ltac:(fold T; lra)). rewrite V3 in Vp. fold T in Vp. rewrite Rpower_3 in Vp by lra.
      assert (B : bp (-30) <= T * T * T <= bp 21).
      { destruct NT as (_ & _ & B). replace (bp (-30)) with (bp (-10) * bp (-10) * bp (-10)) by (rewrite !bp_mul; reflexivity). replace (bp 21) with (bp 7 * bp 7 * bp 7) by (rewrite !bp_mul; reflexivity). pose proof (bp_pos (-10)). pose proof (bp_pos 7). split; apply Rmult_le_compat; try (apply Rmult_le_compat; lra); try lra; apply Rmult_le_pos; lra. }
      specialize (Vp (two_1000 _ _ _ B ltac:(lia) ltac:(lia))). apply four_close in Vp; [|pose proof (bp_pos (-30)); lra]. destruct Vp as [G1 G2]. split; [exact G1|]. split; [exact G2|exact B]. }
    pose proof (near_mul _ _ _ _ _ _ _ _ _ _ Hm N3) as N5. specialize (N5 ltac:(tn) ltac:(tn) ltac:(lia) ltac:(lia)). cbn [Nat.add] in N5.
    pose proof (near_div _ _ _ _ _ _ _ _ _ _ Nchi N5) as N6. specialize (N6 ltac:(tn) ltac:(tn) ltac:(lia) ltac:(lia)). cbn [Nat.add] in N6.
    apply (near_weaken _ (2 * 23) _ _ _ _ (2 * -21) (2 * 9)) in N6; [|lia|lia|lia].
    apply near_sqrt in N6; [|tn|lia|lia]. cbn [Nat.add] in N6.
    set (root := fsqrt (fdiv chi (fmul (mrc264 d64) (vpow t (f64_of_Z 3))))) in *.
    (* exp *)
    assert (Ne : near (nexp + 9) (vexp (fmul (f64_of_Z (-3)) chi)) (exp (-3 * x0)) (-468) 0).
    { destruct Nchi as ([Fc Pc] & Cc & _). pose proof (close_abs 34 _ _ ltac:(tn) Cc) as Ec. replace (INR 34) with 34 in Ec by (rewrite INR_IZR_INZ; reflexivity). pose proof (Rabs_le_inv _ _ Ec) as Ec2. set (x := B2R chi) in *.
      destruct (f64_of_Z_exact (-3) ltac:(lia)) as [F3 V3]. assert (S1 : scale x0) by (unfold scale; split; [apply Rle_trans with (bp 0); [apply bpow_le; lia|change (bp 0) with 1; lra]|apply Rle_trans with (bp 7); [change (bp 7) with 128; lra|apply bpow_le; lia]]).
      assert (X : 1.01 * (34 * uu) * x0 <= / 1000 * x0) by (apply Rmult_le_compat_r; lra).
      assert (Q : Rabs (B2R (f64_of_Z (-3)) * x) <= 3.01 * x0) by (rewrite V3; apply Rabs_le; lra).
      destruct (fmul_about x0 3.01 (f64_of_Z (-3)) chi S1 ltac:(assert (bp 2 <= bp 30) by (apply bpow_le; lia); change (bp 2) with 4 in *; lra) F3 Fc Q) as [Fe Ee]. fold x in Ee. rewrite V3 in Ee. set (e := fmul (f64_of_Z (-3)) chi) in *.
      assert (Eb : Rabs (B2R e - -3 * x0) <= INR nexp * uu).
      { replace (B2R e - -3 * x0) with ((B2R e - -3 * x) + -3 * (x - x0)) by ring. eapply Rle_trans; [apply Rabs_triang|]. rewrite Rabs_mult. replace (Rabs (-3)) with 3 by (rewrite Rabs_left; lra). rewrite nexp_INR.
        apply Rle_trans with (106.1 * (uu * x0)); [lra|]. assert (uu * x0 <= uu * 78) by (apply Rmult_le_compat_l; lra). lra. }
      assert (Ce : close nexp (exp (B2R e)) (exp (-3 * x0))).
      { assert (E : forall p p', Rabs (p - p') <= INR nexp * uu -> exp p <= exp p' * wp nexp).
        { intros p p' H. replace p with (p' + (p - p')) at 1 by ring. rewrite exp_plus. apply Rmult_le_compat_l; [left; apply exp_pos|]. apply exp_wp. now apply Rabs_le_inv in H. }
        split; [left; apply exp_pos|]. split; [left; apply exp_pos|]. split; apply E; [exact Eb|now rewrite Rabs_minus_sym]. }
      assert (B : bp (-468) <= exp (-3 * x0) <= bp 0).
      { split; [|change (bp 0) with 1; rewrite <- exp_0; left; apply exp_increasing; lra]. pose proof (exp_low 234) as L. change (- (2 * Z.of_nat 234))%Z with (-468)%Z in L. eapply Rle_trans; [exact L|]. replace (INR 234) with 234 by (rewrite INR_IZR_INZ; reflexivity).
        destruct (Rle_lt_or_eq_dec x0 78 (proj2 Bx0)) as [H|H]; [left; apply exp_increasing; lra|right; f_equal; lra]. }
      assert (B2 : bp (-469) <= exp (B2R e) <= bp 1).
      { destruct Ce as (_ & _ & A1 & A2). pose proof (tiny_2 nexp ltac:(rewrite <- (Nat.add_0_r nexp); apply nexp_tiny; lia)). pose proof (wp_1 nexp). pose proof (exp_pos (B2R e)). pose proof (exp_pos (-3 * x0)). replace (bp (-469)) with (bp (-468) / 2) by (rewrite <- bp_1, bp_div; reflexivity). replace (bp 1) with (bp 0 * 2) by (rewrite <- bp_1, bp_mul; reflexivity). split; nra. }
      specialize (Ve e Fe (two_1000 _ _ _ B2 ltac:(lia) ltac:(lia))). apply four_close in Ve; [|left; apply exp_pos]. destruct Ve as [G1 G2]. split; [exact G1|]. split; [|exact B]. rewrite Nat.add_comm. eapply close_trans; [exact G2|exact Ce]. }
    (* the product *)
    pose proof (near_lit 1 6 (1 / 1000000) (-20) (-19) ltac:(lia) ltac:(lia) ltac:(reflexivity) ltac:(lia) ltac:(change (bp (-20)) with (/ 1048576); change (bp (-19)) with (/ 524288); lra)) as Nm.
    pose proof (near_mul _ _ _ _ _ _ _ _ _ _ Nm Hc0) as P1. specialize (P1 ltac:(tn) ltac:(tn) ltac:(lia) ltac:(lia)). cbn [Nat.add] in P1.
    pose proof (near_mul _ _ _ _ _ _ _ _ _ _ P1 Nth) as P2. specialize (P2 ltac:(tn) ltac:(tn) ltac:(lia) ltac:(lia)). cbn [Nat.add] in P2.
    pose proof (near_mul _ _ _ _ _ _ _ _ _ _ P2 N6) as P3. specialize (P3 ltac:(tn) ltac:(tn) ltac:(lia) ltac:(lia)). cbn [Nat.add] in P3.
    pose proof (near_mul _ _ _ _ _ _ _ _ _ _ P3 Ne) as P4. specialize (P4 ltac:(tn) (nexp_tiny 9 ltac:(lia)) ltac:(lia) ltac:(lia)).
    assert (L : Bltb f0 t = true) by (rewrite Bltb_correct by (reflexivity || exact Ft); apply Rlt_bool_true; fold T; change (B2R f0) with 0; lra).
    unfold bh_point64. rewrite L. cbv zeta. fold om. fold theta. fold q. fold y. fold chi. fold root.
    replace (fit_of d T / 1000000) with (1 / 1000000 * c0 d * th * sqrt (x0 / (mrc2 d * (T * T * T))) * exp (-3 * x0)).
    - eapply near_weaken; [| | |exact P4]; [lia|vm_compute; discriminate|vm_compute; discriminate].
    - unfold fit_of, bh_fit. change (bh_theta (c1 d) (c2 d) (c3 d) (c4 d) (c5 d) (c6 d) T) with th. replace (bg d ^ 2) with (bg d * bg d) by ring. fold q0. fold x0. replace (T ^ 3) with (T * T * T) by ring. field.
  Qed.
End Point.

(** ** The three fits *)
Lemma frac_range N D : 0 < D -> - (1 / 2) * D <= N <= 1 / 2 * D -> 1 / 2 <= 1 - N / D <= 3 / 2.
Proof. intros HD H. assert (N / D * D = N) by (field; lra). split; apply (Rmult_le_reg_r D); nra. Qed.
Lemma t_size (t : f64) : 0.001 <= B2R t <= 100 -> bp (-10) <= B2R t <= bp 10.
Proof. intro H. change (bp (-10)) with (/ 1024). change (bp 10) with 1024. lra. Qed.
Lemma bp_m40 : bp (-40) <= 1e-9.
Proof. change (bp (-40)) with (/ 1099511627776). lra. Qed.
Lemma bp_p40 : 1 <= bp 40.
Proof. change 1 with (bp 0). apply bpow_le. lia. Qed.
Lemma bp_p80 : 1000 <= bp 80.
Proof. apply Rle_trans with (bp 10); [change (bp 10) with 1024; lra|apply bpow_le; lia]. Qed.
Ltac lit_pos := (apply near_lit; [lia|lia|cbn [bg c0]; match goal with |- _ = _ / IZR ?e => let v := eval vm_compute in e in change e with v end; lra|lia|]).
Ltac mlit := (apply mag_lit; [lia|lia|match goal with |- _ = _ / IZR ?e => let v := eval vm_compute in e in change e with v end; lra| | |]; pose proof bp_m40; pose proof bp_p40;
  try (rewrite Rabs_pos_eq by lra; lra); try (rewrite Rabs_left by lra; lra); try lra).
Ltac mzero := (apply mag_zero; pose proof bp_m40; pose proof bp_p40; lra).
Lemma inst r (t : f64) : fitted r -> is_finite t = true -> 0.001 <= B2R t <= 100 ->
  exists d64, coeffs64 r = Some d64 /\ let d := coeffs r in
    near 39 (fsub f1 (fdiv (fmul t (fadd (c1_64 d64) (fmul t (fadd (c3_64 d64) (fmul t (c5_64 d64))))))
                     (fadd f1 (fmul t (fadd (c2_64 d64) (fmul t (fadd (c4_64 d64) (fmul t (c6_64 d64))))))))) (1 - bhN d (B2R t) / bhD d (B2R t)) (-1) 1 /\
    1 / 2 <= 1 - bhN d (B2R t) / bhD d (B2R t) <= 3 / 2 /\
    near 1 (bg64 d64) (bg d) 4 6 /\ 31 <= bg d <= 35 /\ near 0 (mrc264 d64) (mrc2 d) 19 21 /\ near 1 (c0_64 d64) (c0 d) (-38) (-29).
Proof.
  intros Hr Ft Ht. pose proof (t_size t Ht) as Bt. set (T := B2R t) in *. pose proof bp_p80 as B80. assert (T2 : 0 <= T * T <= 100 * T) by nra. assert (T3 : 0 <= T * T * T <= 100 * (T * T)) by nra.
  destruct Hr as [->|[->| ->]]; (eexists; split; [reflexivity|]); cbv zeta; cbn [coeffs].
  - assert (A : near 39 (fsub f1 (fdiv (fmul t (fadd (c1_64 bh64_DT) (fmul t (fadd (c3_64 bh64_DT) (fmul t (c5_64 bh64_DT)))))) (fadd f1 (fmul t (fadd (c2_64 bh64_DT) (fmul t (fadd (c4_64 bh64_DT) (fmul t (c6_64 bh64_DT)))))))))
       (1 - bhN bh_DT T / bhD bh_DT T) (-1) 1 /\ 1 / 2 <= 1 - bhN bh_DT T / bhD bh_DT T <= 3 / 2).
    { assert (H1 : mag 40 1 0.0151361 (c1_64 bh64_DT) 0.0151361) by (cbn [bh64_DT c1_64]; mlit). assert (H3 : mag 40 1 0.00460643 (c3_64 bh64_DT) 0.00460643) by (cbn [bh64_DT c3_64]; mlit). assert (H5 : mag 40 1 0.00010675 (c5_64 bh64_DT) (-0.00010675)) by (cbn [bh64_DT c5_64]; mlit).
      assert (H2 : mag 40 1 0.0751886 (c2_64 bh64_DT) 0.0751886) by (cbn [bh64_DT c2_64]; mlit). assert (H4 : mag 40 1 0.0135 (c4_64 bh64_DT) 0.0135) by (cbn [bh64_DT c4_64]; mlit). assert (H6 : mag 40 1 0.00001366 (c6_64 bh64_DT) 0.00001366) by (cbn [bh64_DT c6_64]; mlit).
      pose proof (mag_horner t _ _ _ _ _ _ _ _ _ Ft Bt H1 H3 H5) as HN. pose proof (mag_horner t _ _ _ _ _ _ _ _ _ Ft Bt H2 H4 H6) as HP. fold T in HN, HP. unfold bhN, bhD, bh_DT; cbn [c1 c2 c3 c4 c5 c6].
      replace (T * (1.51361e-2 + T * (4.60643e-3 + T * (-1.0675e-4)))) with (T * (0.0151361 + T * (0.00460643 + T * (-0.00010675)))) by lra. replace (1 + T * (7.51886e-2 + T * (1.35e-2 + T * 1.366e-5))) with (1 + T * (0.0751886 + T * (0.0135 + T * 0.00001366))) by lra.
      split; [apply (one_minus_frac _ _ _ _ _ _ HN HP)|apply frac_range]; lra. }
    split; [apply A|]. split; [apply A|]. unfold bh64_DT, bh_DT; cbn [bg64 mrc264 c0_64 bg mrc2 c0]. split; [|split; [lra|split]].
    + lit_pos. change (bp 4) with 16. change (bp 6) with 64. lra.
    + apply near_int; [lia|]. change (bp 19) with 524288. change (bp 21) with 2097152. lra.
    + lit_pos. change (bp (-38)) with (/ 274877906944). change (bp (-29)) with (/ 536870912). lra.
  - assert (A : near 39 (fsub f1 (fdiv (fmul t (fadd (c1_64 bh64_DDn) (fmul t (fadd (c3_64 bh64_DDn) (fmul t (c5_64 bh64_DDn)))))) (fadd f1 (fmul t (fadd (c2_64 bh64_DDn) (fmul t (fadd (c4_64 bh64_DDn) (fmul t (c6_64 bh64_DDn)))))))))
       (1 - bhN bh_DDn T / bhD bh_DDn T) (-1) 1 /\ 1 / 2 <= 1 - bhN bh_DDn T / bhD bh_DDn T <= 3 / 2).
    { assert (H1 : mag 40 1 0.00585778 (c1_64 bh64_DDn) 0.00585778) by (cbn [bh64_DDn c1_64]; mlit). assert (H3 : mag 40 1 1e-9 (c3_64 bh64_DDn) 0) by (cbn [bh64_DDn c3_64]; mzero). assert (H5 : mag 40 1 1e-9 (c5_64 bh64_DDn) 0) by (cbn [bh64_DDn c5_64]; mzero).
      assert (H2 : mag 40 1 0.00768222 (c2_64 bh64_DDn) 0.00768222) by (cbn [bh64_DDn c2_64]; mlit). assert (H4 : mag 40 1 0.000002964 (c4_64 bh64_DDn) (-0.000002964)) by (cbn [bh64_DDn c4_64]; mlit). assert (H6 : mag 40 1 1e-9 (c6_64 bh64_DDn) 0) by (cbn [bh64_DDn c6_64]; mzero).
      pose proof (mag_horner t _ _ _ _ _ _ _ _ _ Ft Bt H1 H3 H5) as HN. pose proof (mag_horner t _ _ _ _ _ _ _ _ _ Ft Bt H2 H4 H6) as HP. fold T in HN, HP. unfold bhN, bhD, bh_DDn; cbn [c1 c2 c3 c4 c5 c6].
      replace (T * (5.85778e-3 + T * (0 + T * 0))) with (T * (0.00585778 + T * (0 + T * 0))) by lra. replace (1 + T * (7.68222e-3 + T * (-2.964e-6 + T * 0))) with (1 + T * (0.00768222 + T * (-0.000002964 + T * 0))) by lra.
      split; [apply (one_minus_frac _ _ _ _ _ _ HN HP)|apply frac_range]; lra. }
    split; [apply A|]. split; [apply A|]. unfold bh64_DDn, bh_DDn; cbn [bg64 mrc264 c0_64 bg mrc2 c0]. split; [|split; [lra|split]].
    + lit_pos. change (bp 4) with 16. change (bp 6) with 64. lra.
    + apply near_int; [lia|]. change (bp 19) with 524288. change (bp 21) with 2097152. lra.
    + lit_pos. change (bp (-38)) with (/ 274877906944). change (bp (-29)) with (/ 536870912). lra.
  - assert (A : near 39 (fsub f1 (fdiv (fmul t (fadd (c1_64 bh64_DDp) (fmul t (fadd (c3_64 bh64_DDp) (fmul t (c5_64 bh64_DDp)))))) (fadd f1 (fmul t (fadd (c2_64 bh64_DDp) (fmul t (fadd (c4_64 bh64_DDp) (fmul t (c6_64 bh64_DDp)))))))))
       (1 - bhN bh_DDp T / bhD bh_DDp T) (-1) 1 /\ 1 / 2 <= 1 - bhN bh_DDp T / bhD bh_DDp T <= 3 / 2).
    { assert (H1 : mag 40 1 0.00341267 (c1_64 bh64_DDp) 0.00341267) by (cbn [bh64_DDp c1_64]; mlit). assert (H3 : mag 40 1 1e-9 (c3_64 bh64_DDp) 0) by (cbn [bh64_DDp c3_64]; mzero). assert (H5 : mag 40 1 1e-9 (c5_64 bh64_DDp) 0) by (cbn [bh64_DDp c5_64]; mzero).
      assert (H2 : mag 40 1 0.00199167 (c2_64 bh64_DDp) 0.00199167) by (cbn [bh64_DDp c2_64]; mlit). assert (H4 : mag 40 1 0.000010506 (c4_64 bh64_DDp) 0.000010506) by (cbn [bh64_DDp c4_64]; mlit). assert (H6 : mag 40 1 1e-9 (c6_64 bh64_DDp) 0) by (cbn [bh64_DDp c6_64]; mzero).
      pose proof (mag_horner t _ _ _ _ _ _ _ _ _ Ft Bt H1 H3 H5) as HN. pose proof (mag_horner t _ _ _ _ _ _ _ _ _ Ft Bt H2 H4 H6) as HP. fold T in HN, HP. unfold bhN, bhD, bh_DDp; cbn [c1 c2 c3 c4 c5 c6].
      replace (T * (3.41267e-3 + T * (0 + T * 0))) with (T * (0.00341267 + T * (0 + T * 0))) by lra. replace (1 + T * (1.99167e-3 + T * (1.0506e-5 + T * 0))) with (1 + T * (0.00199167 + T * (0.000010506 + T * 0))) by lra.
      split; [apply (one_minus_frac _ _ _ _ _ _ HN HP)|apply frac_range]; lra. }
    split; [apply A|]. split; [apply A|]. unfold bh64_DDp, bh_DDp; cbn [bg64 mrc264 c0_64 bg mrc2 c0]. split; [|split; [lra|split]].
    + lit_pos. change (bp 4) with 16. change (bp 6) with 64. lra.
    + apply near_int; [lia|]. change (bp 19) with 524288. change (bp 21) with 2097152. lra.
    + lit_pos. change (bp (-38)) with (/ 274877906944). change (bp (-29)) with (/ 536870912). lra.
Qed.
Lemma fitted_point64 spow vpow vexp r t : good_pow spow -> good_pow vpow -> good_exp vexp -> fitted r -> is_finite t = true -> 0.001 <= B2R t <= 100 ->
  exists d64, coeffs64 r = Some d64 /\ near (nexp + 79) (bh_point64 spow vpow vexp d64 t) (published_SI r (B2R t)) (-558) (-31).
Proof.
  intros Sp Vp Ve Hr Ft Ht. destruct (inst r t Hr Ft Ht) as (d64 & E & H1 & H2 & H3 & H4 & H5 & H6). exists d64. split; [exact E|].
  pose proof (point64 spow vpow vexp Sp Vp Ve d64 (coeffs r) t Ft Ht H1 H2 H3 H4 H5 H6) as P. destruct (fitted_coeffs r Hr) as (_ & EF & _). rewrite EF in P. unfold published_SI. destruct (Rle_dec (B2R t) 0); [lra|exact P].
Qed.
