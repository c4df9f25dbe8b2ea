(** Lemmas for C93: trapezoid rule error, moments of the two tabulated shapes. *)
From Coq Require Import Reals List Lra Lia Psatz.
From Coquelicot Require Import Coquelicot.
From Verif Require Import SpecEnergy.
Import ListNotations.
Open Scope R_scope.

(** ** A function whose derivative is bounded *)
Lemma growth (u u' : R -> R) a b : a <= b -> (forall t, a <= t <= b -> is_derive u t (u' t)) -> (forall t, a <= t <= b -> u' t <= 0) -> u b <= u a.
Proof.
  intros H D N. destruct (Rle_lt_or_eq_dec a b H) as [L| ->]; [|lra].
  destruct (MVT_cor2 u u' a b L) as (c & E & Hc). { intros c Hc. apply is_derive_Reals, D, Hc. }
  assert (u' c <= 0) by (apply N; lra). nra.
Qed.
Lemma bounded_growth (g g' B : R -> R) (B' : R -> R) h : 0 <= h -> (forall t, 0 <= t <= h -> is_derive g t (g' t)) -> (forall t, 0 <= t <= h -> is_derive B t (B' t)) ->
  (forall t, 0 <= t <= h -> Rabs (g' t) <= B' t) -> g 0 = 0 -> B 0 = 0 -> Rabs (g h) <= B h.
Proof.
  intros Hh Dg DB Hb G0 B0. apply Rabs_le. split.
  - assert (- g h - B h <= - g 0 - B 0); [|lra]. apply (growth (fun t => - g t - B t) (fun t => - g' t - B' t)); [exact Hh| |].
    + intros t Ht. apply (is_derive_minus (fun t => - g t) B t (- g' t) (B' t)); [apply (is_derive_opp g t (g' t)); now apply Dg|now apply DB].
    + intros t Ht. pose proof (Hb t Ht) as Q. pose proof (Rle_abs (- g' t)) as Q2. rewrite Rabs_Ropp in Q2. lra.
  - assert (g h - B h <= g 0 - B 0); [|lra]. apply (growth (fun t => g t - B t) (fun t => g' t - B' t)); [exact Hh| |].
    + intros t Ht. apply (is_derive_minus g B t (g' t) (B' t)); [now apply Dg|now apply DB].
    + intros t Ht. pose proof (Hb t Ht) as Q. pose proof (Rle_abs (g' t)) as Q2. lra.
Qed.

Lemma shift_derive (F F1 : R -> R) x t : is_derive F (x + t) (F1 (x + t)) -> is_derive (fun t => F (x + t)) t (F1 (x + t)).
Proof.
  intro D. assert (Q : is_derive (fun t => F (x + t)) t (scal 1 (F1 (x + t)))).
  { apply (is_derive_comp F (fun t => x + t)); [exact D|]. auto_derive; [exact Logic.I|ring]. }
  replace (F1 (x + t)) with (scal 1 (F1 (x + t))); [exact Q|]. unfold scal. cbn. unfold mult. cbn. ring.
Qed.
Lemma trap_step (P F F1 F2 : R -> R) K x h : 0 <= h ->
  (forall t, x <= t <= x + h -> is_derive P t (F t) /\ is_derive F t (F1 t) /\ is_derive F1 t (F2 t) /\ Rabs (F2 t) <= K) ->
  Rabs (h * (F x + F (x + h)) / 2 - (P (x + h) - P x)) <= K * h ^ 3 / 12.
Proof.
  intros Hh D. assert (D' : forall t, 0 <= t <= h -> is_derive (fun t => P (x + t)) t (F (x + t)) /\ is_derive (fun t => F (x + t)) t (F1 (x + t)) /\
      is_derive (fun t => F1 (x + t)) t (F2 (x + t)) /\ Rabs (F2 (x + t)) <= K).
  { intros t Ht. destruct (D (x + t) ltac:(lra)) as (D1 & D2 & D3 & D4). split; [now apply shift_derive|]. split; [now apply shift_derive|]. split; [now apply shift_derive|exact D4]. }
  assert (G1 : forall h', 0 <= h' <= h -> Rabs ((F x - F (x + h') + h' * F1 (x + h')) / 2) <= K * h' ^ 2 / 4).
  { intros h' Hh'. apply (bounded_growth (fun t => (F x - F (x + t) + t * F1 (x + t)) / 2) (fun t => t * F2 (x + t) / 2) (fun t => K * t ^ 2 / 4) (fun t => K * t / 2)).
    - lra.
    - intros t Ht. destruct (D' t ltac:(lra)) as (_ & D2 & D3 & _).
      apply is_derive_ext with (f := fun t => plus (/ 2 * F x) (plus (- / 2 * F (x + t)) (/ 2 * (t * F1 (x + t))))).
      { intro u. unfold plus. cbn. field. }
      replace (t * F2 (x + t) / 2) with (plus 0 (plus (- / 2 * F1 (x + t)) (/ 2 * (1 * F1 (x + t) + t * F2 (x + t))))) by (unfold plus; cbn; field).
      apply (is_derive_plus (fun _ => / 2 * F x)); [apply (is_derive_const (/ 2 * F x))|].
      apply (is_derive_plus (fun t => - / 2 * F (x + t)) (fun t => / 2 * (t * F1 (x + t)))).
      + now apply (is_derive_scal (fun t => F (x + t))).
      + apply (is_derive_scal (fun t => t * F1 (x + t))). apply (is_derive_mult (fun t => t) (fun t => F1 (x + t)) t 1 (F2 (x + t))); [apply (is_derive_id t)|exact D3|intros; apply Rmult_comm].
    - intros t Ht. auto_derive; [exact Logic.I|field].
    - intros t Ht. destruct (D' t ltac:(lra)) as (_ & _ & _ & D4). unfold Rdiv. rewrite !Rabs_mult, (Rabs_pos_eq (/ 2)) by lra.
      rewrite (Rabs_pos_eq t) by lra. assert (t * Rabs (F2 (x + t)) <= t * K) by (apply Rmult_le_compat_l; lra). lra.
    - rewrite Rplus_0_r. field.
    - field. }
  apply (bounded_growth (fun t => t * (F x + F (x + t)) / 2 - (P (x + t) - P x)) (fun t => (F x - F (x + t) + t * F1 (x + t)) / 2) (fun t => K * t ^ 3 / 12) (fun t => K * t ^ 2 / 4)).
  - exact Hh.
  - intros t Ht. destruct (D' t ltac:(lra)) as (D1 & D2 & _ & _).
    apply is_derive_ext with (f := fun t => plus (/ 2 * (t * (F x + F (x + t)))) (plus (- 1 * P (x + t)) (P x))).
    { intro u. unfold plus. cbn. field. }
    replace ((F x - F (x + t) + t * F1 (x + t)) / 2) with (plus (/ 2 * (1 * (F x + F (x + t)) + t * (0 + F1 (x + t)))) (plus (- 1 * F (x + t)) 0)) by (unfold plus; cbn; field).
    apply (is_derive_plus (fun t => / 2 * (t * (F x + F (x + t)))) (fun t => plus (- 1 * P (x + t)) (P x))).
    + apply (is_derive_scal (fun t => t * (F x + F (x + t)))).
      apply (is_derive_mult (fun t => t) (fun t => F x + F (x + t)) t 1 (0 + F1 (x + t))); [apply (is_derive_id t)| |intros; apply Rmult_comm].
      apply (is_derive_plus (fun _ => F x) (fun t => F (x + t)) t 0); [apply (is_derive_const (F x))|exact D2].
    + apply (is_derive_plus (fun t => - 1 * P (x + t)) (fun _ => P x) t (- 1 * F (x + t)) 0); [now apply (is_derive_scal (fun t => P (x + t)))|apply (is_derive_const (P x))].
  - intros t Ht. auto_derive; [exact Logic.I|field].
  - intros t Ht. now apply G1.
  - rewrite Rplus_0_r. field.
  - field.
Qed.

(** ** The grid -6, -6 + h, ..., 6 *)
Definition node (k : nat) : R := 12 * INR k / 999 - 6.
Definition step : R := 12 / 999.
Definition points (g : R -> R) (i n : nat) : list (R * R) := map (fun k => (node k, g (node k))) (seq i n).
Lemma node_S k : node (S k) = node k + step.
Proof. unfold node, step. rewrite S_INR. field. Qed.
Lemma node_range k : (k <= 999)%nat -> -6 <= node k <= 6.
Proof.
  intro H. apply le_INR in H. pose proof (pos_INR k). unfold node. replace (INR 999) with 999 in H; [lra|].
  change 999%nat with (Z.to_nat 999). rewrite INR_IZR_INZ, Z2Nat.id by lia. reflexivity.
Qed.
Lemma node_0 : node 0 = -6. Proof. unfold node. cbn. field. Qed.
Lemma node_999 : node 999 = 6.
Proof. unfold node. replace (INR 999) with 999; [field|]. change 999%nat with (Z.to_nat 999). rewrite INR_IZR_INZ, Z2Nat.id by lia. reflexivity. Qed.
Lemma points_S g i n : integral (points g i (S (S n))) = step * (g (node i) + g (node (S i))) / 2 + integral (points g (S i) (S n)).
Proof.
  unfold points. change (seq i (S (S n))) with (i :: S i :: seq (S (S i)) n). change (seq (S i) (S n)) with (S i :: seq (S (S i)) n). cbn [map].
  change (integral ((node i, g (node i)) :: (node (S i), g (node (S i))) :: ?l)) with ((node (S i) - node i) * (g (node i) + g (node (S i))) / 2 + integral ((node (S i), g (node (S i))) :: l)).
  replace (node (S i) - node i) with step by (rewrite node_S; ring). reflexivity.
Qed.
Lemma trap_sum (P F F1 F2 : R -> R) K : (forall t, -6 <= t <= 6 -> is_derive P t (F t) /\ is_derive F t (F1 t) /\ is_derive F1 t (F2 t) /\ Rabs (F2 t) <= K) ->
  forall n i, (i + n <= 999)%nat -> Rabs (integral (points F i (S n)) - (P (node (i + n)) - P (node i))) <= INR n * (K * step ^ 3 / 12).
Proof.
  intro D. induction n as [|n IH]; intros i Hi.
  - rewrite Nat.add_0_r. cbn. rewrite Rabs_pos_eq; lra.
  - rewrite points_S. specialize (IH (S i) ltac:(lia)). replace (S i + n)%nat with (i + S n)%nat in IH by lia.
    assert (St : Rabs (step * (F (node i) + F (node (S i))) / 2 - (P (node (S i)) - P (node i))) <= K * step ^ 3 / 12).
    { rewrite node_S. apply (trap_step P F F1 F2); [unfold step; lra|]. intros t Ht. apply D.
      pose proof (node_range i ltac:(lia)). pose proof (node_range (S i) ltac:(lia)). rewrite node_S in H0. lra. }
    rewrite S_INR. set (A := step * _ / 2) in *. set (B := integral _) in *.
    replace (A + B - (P (node (i + S n)) - P (node i))) with ((A - (P (node (S i)) - P (node i))) + (B - (P (node (i + S n)) - P (node (S i))))) by ring.
    eapply Rle_trans; [apply Rabs_triang|]. lra.
Qed.
(** On the whole grid the error is at most K h^2. *)
Lemma trap_error (P F F1 F2 : R -> R) K : (forall t, -6 <= t <= 6 -> is_derive P t (F t) /\ is_derive F t (F1 t) /\ is_derive F1 t (F2 t) /\ Rabs (F2 t) <= K) ->
  Rabs (integral (points F 0 1000) - (P 6 - P (-6))) <= K * step ^ 2.
Proof.
  intro D. pose proof (trap_sum P F F1 F2 K D 999 0 ltac:(lia)) as H. rewrite node_0 in H. change (0 + 999)%nat with 999%nat in H. rewrite node_999 in H.
  replace (INR 999) with 999 in H. 2:{ change 999%nat with (Z.to_nat 999). rewrite INR_IZR_INZ, Z2Nat.id by lia. reflexivity. }
  replace (999 * (K * step ^ 3 / 12)) with (K * step ^ 2) in H by (unfold step; field). exact H.
Qed.

(** A lower bound for the normalisation: at least m on [-1, 1]. *)
Lemma points_app g i a b : integral (points g i (S (a + b))) = integral (points g i (S a)) + integral (points g (i + a) (S b)).
Proof.
  revert i. induction a as [|a IH]; intro i; [rewrite Nat.add_0_r; change (0 + b)%nat with b; change (integral (points g i 1)) with 0; lra|].
  change (S a + b)%nat with (S (a + b)). rewrite !points_S, IH. replace (S i + a)%nat with (i + S a)%nat by lia. ring.
Qed.
Lemma points_lower g m n : forall i, (forall k, (i <= k <= i + n)%nat -> m <= g (node k)) -> INR n * step * m <= integral (points g i (S n)).
Proof.
  induction n as [|n IH]; intros i H; [cbn; lra|]. rewrite points_S, S_INR. specialize (IH (S i) ltac:(intros k Hk; apply H; lia)).
  pose proof (H i ltac:(lia)). pose proof (H (S i) ltac:(lia)). assert (0 < step) by (unfold step; lra). nra.
Qed.
Lemma central_lower g m : 0 <= m -> (forall x, -6 <= x <= 6 -> 0 <= g x) -> (forall x, -1 <= x <= 1 -> m <= g x) -> 1.98 * m <= integral (points g 0 1000).
Proof.
  intros Hm H0 H1. change 1000%nat with (S (417 + (165 + 417)))%nat. rewrite (points_app g 0 417), (points_app g (0 + 417) 165).
  assert (N : forall n z, n = Z.to_nat z -> (0 <= z)%Z -> INR n = IZR z) by (intros n z -> Hz; rewrite INR_IZR_INZ, Z2Nat.id by lia; reflexivity).
  assert (A : INR 417 * step * 0 <= integral (points g 0 418)) by (apply points_lower; intros; apply H0, node_range; lia).
  assert (B : INR 417 * step * 0 <= integral (points g (0 + 417 + 165) 418)) by (apply points_lower; intros; apply H0, node_range; lia).
  assert (C : INR 165 * step * m <= integral (points g (0 + 417) 166)).
  { apply points_lower. intros k Hk. apply H1. destruct Hk as [K1 K2]. apply le_INR in K1, K2. change (0 + 417)%nat with 417%nat in K1. change (0 + 417 + 165)%nat with 582%nat in K2.
    rewrite (N 417%nat 417%Z) in K1 by reflexivity || lia. rewrite (N 582%nat 582%Z) in K2 by reflexivity || lia. unfold node. lra. }
  rewrite (N 165%nat 165%Z) in C by reflexivity || lia. unfold step in C.
  set (I1 := integral (points g 0 418)) in *. set (I2 := integral (points g (0 + 417) 166)) in *. set (I3 := integral (points g (0 + 417 + 165) 418)) in *. lra.
Qed.

(** ** Exponential bounds *)
Lemma exp_ge_cube w : 0 <= w -> (1 + w / 3) ^ 3 <= exp w.
Proof.
  intro H. replace w with (w / 3 + w / 3 + w / 3) at 2 by field. rewrite !exp_plus.
  assert (L : 1 + w / 3 <= exp (w / 3)). { destruct (Req_dec w 0) as [->|N]; [replace (0 / 3) with 0 by field; rewrite exp_0; lra|left; apply exp_ineq1; lra]. }
  set (u := 1 + w / 3) in *. assert (1 <= u) by (unfold u; lra). set (v := exp (w / 3)) in *. assert (u * u <= v * v) by (apply Rmult_le_compat; lra).
  assert (u * u * u <= v * v * v) by (apply Rmult_le_compat; nra). cbn [pow]. lra.
Qed.
Lemma exp_bound X K w : 0 <= w -> X <= K * (1 + w / 3) ^ 3 -> 0 <= K -> X * exp (- w) <= K.
Proof.
  intros Hw HX HK. pose proof (exp_ge_cube w Hw) as E. pose proof (exp_pos w) as Ep. rewrite exp_Ropp.
  apply (Rmult_le_reg_r (exp w)); [exact Ep|]. rewrite Rmult_assoc, Rinv_l, Rmult_1_r by lra.
  assert (K * (1 + w / 3) ^ 3 <= K * exp w) by (apply Rmult_le_compat_l; lra). lra.
Qed.
Lemma exp_le_1 a b : a <= b -> exp a <= exp b.
Proof. intro H. destruct (Req_dec a b) as [->|N]; [lra|left; apply exp_increasing; lra]. Qed.
Lemma exp_mult_nat a n : exp (INR n * a) = exp a ^ n.
Proof. induction n as [|n IH]; [cbn; rewrite Rmult_0_l; apply exp_0|]. rewrite S_INR, Rmult_plus_distr_r, exp_plus, IH, Rmult_1_l. cbn [pow]. ring. Qed.
Lemma exp_13 : exp (- 13) <= 1e-5.
Proof.
  assert (H : 5 / 4 <= exp (1 / 4)) by (pose proof (exp_ineq1 (1 / 4) ltac:(lra)); lra).
  assert (E : exp 13 = (((exp (1 / 4) ^ 2) ^ 2) ^ 13)).
  { transitivity (exp (1 / 4) ^ 52); [|rewrite (pow_mult (exp (1 / 4)) 4 13 : _ ^ 52 = _), (pow_mult (exp (1 / 4)) 2 2 : _ ^ 4 = _); reflexivity].
    rewrite <- exp_mult_nat. f_equal. replace (INR 52) with 52 by (cbn; lra). lra. }
  assert (H4 : 2.44 <= (exp (1 / 4) ^ 2) ^ 2).
  { assert (25 / 16 <= exp (1 / 4) ^ 2) by (cbn [pow]; nra). set (u := exp (1 / 4) ^ 2) in *. cbn [pow]. nra. }
  assert (H13 : 2.44 ^ 13 <= exp 13) by (rewrite E; apply pow_incr; lra).
  assert (100000 <= exp 13) by (eapply Rle_trans; [|exact H13]; cbn [pow]; lra).
  replace (- 13) with (Ropp 13) by lra. rewrite exp_Ropp. apply (Rmult_le_reg_r (exp 13)); [lra|]. rewrite Rinv_l by lra. lra.
Qed.
Lemma exp_lower8 w : 0 <= w <= 8 -> (1 - w / 8) ^ 8 <= exp (- w).
Proof.
  intro H. replace (- w) with (INR 8 * (- w / 8)) by (replace (INR 8) with 8 by (cbn; ring); field). rewrite exp_mult_nat. apply pow_incr. split; [lra|].
  destruct (Req_dec w 0) as [->|N]; [replace (- 0 / 8) with 0 by field; rewrite exp_0; lra|]. pose proof (exp_ineq1 (- w / 8) ltac:(lra)). lra.
Qed.

Lemma prod_derive (C f : R -> R) x c l d : is_derive C x c -> is_derive f x (- l * f x) -> d = (c - C x * l) * f x -> is_derive (fun x => C x * f x) x d.
Proof.
  intros HC Hf ->. replace ((c - C x * l) * f x) with (c * f x + C x * (- l * f x)) by ring.
  apply (is_derive_mult C f x c (- l * f x)); [exact HC|exact Hf|intros; apply Rmult_comm].
Qed.

(** ** The Gaussian *)
Definition bell (x : R) : R := exp (- (x ^ 2 / 2)).
Lemma bell_derive x : is_derive bell x (- x * bell x).
Proof. unfold bell. auto_derive; [exact Logic.I|]. replace (x * (x * 1) * / 2) with (x ^ 2 / 2) by field. field. Qed.
Lemma bell_second : Rabs (integral (points (fun x => (x ^ 2 - 1) * bell x) 0 1000)) <= 0.00136.
Proof.
  pose proof (trap_error (fun x => - x * bell x) (fun x => (x ^ 2 - 1) * bell x) (fun x => (3 * x - x ^ 3) * bell x) (fun x => (x ^ 4 - 6 * x ^ 2 + 3) * bell x) 8) as H.
  assert (H' : Rabs (integral (points (fun x => (x ^ 2 - 1) * bell x) 0 1000) - (- (6) * bell 6 - - -6 * bell (-6))) <= 8 * step ^ 2).
  { apply H. intros t Ht. split; [apply (prod_derive (fun x => - x) bell t (- 1) t); [auto_derive; [exact Logic.I|ring]|apply bell_derive|ring]|].
    split; [apply (prod_derive (fun x => x ^ 2 - 1) bell t (2 * t) t); [auto_derive; [exact Logic.I|ring]|apply bell_derive|ring]|].
    split; [apply (prod_derive (fun x => 3 * x - x ^ 3) bell t (3 - 3 * t ^ 2) t); [auto_derive; [exact Logic.I|ring]|apply bell_derive|ring]|].
    unfold bell. rewrite Rabs_mult, (Rabs_pos_eq (exp _)) by (left; apply exp_pos). apply exp_bound; [nra| |lra].
    set (u := t ^ 2). replace (t ^ 4) with (u ^ 2) by (unfold u; ring). assert (0 <= u) by (unfold u; apply pow2_ge_0). apply Rabs_le. split; cbn [pow]; nra. }
  assert (B : forall x, x ^ 2 = 36 -> 0 <= bell x <= 1e-5).
  { intros x Hx. unfold bell. rewrite Hx. split; [left; apply exp_pos|]. eapply Rle_trans; [apply (exp_le_1 _ (- 13)); lra|apply exp_13]. }
  pose proof (B 6 ltac:(lra)). pose proof (B (-6) ltac:(lra)). unfold step in H'.
  set (J := integral _) in *. revert H'. unfold Rabs. destruct (Rcase_abs _), (Rcase_abs J); lra.
Qed.
Lemma bell_norm : 1.168 <= integral (points bell 0 1000).
Proof.
  apply Rle_trans with (1.98 * 0.59); [lra|]. apply central_lower; [lra|intros; left; apply exp_pos|]. intros x Hx.
  unfold bell. pose proof (exp_le_1 (- (1 / 2)) (- (x ^ 2 / 2)) ltac:(nra)) as E. pose proof (exp_lower8 (1 / 2) ltac:(lra)) as L.
  assert (0.59 <= (1 - 1 / 2 / 8) ^ 8) by (cbn [pow]; lra). lra.
Qed.

Lemma poly_first z : 0 <= z -> 2 * (2.21 * z) + (z + 0.084) * (5.22 + 4.8841 * z ^ 2) <= 20 * (1 + 0.379 * z ^ 2 / 3) ^ 3.
Proof.
  intro Z0. assert (H1 : 0 <= (z * (z ^ 2 - 5.5)) ^ 2) by apply pow2_ge_0.
  cbn [pow] in *. nra.
Qed.
Lemma poly_second z : 0 <= z -> 2 + 4 * (z + 0.084) * (2.21 * z) + (1 + (z + 0.084) ^ 2) * (5.22 + 4.8841 * z ^ 2) <= 65 * (1 + 0.379 * z ^ 2 / 3) ^ 3.
Proof.
  intro Z0. assert (H1 : 0 <= (z * (z ^ 2 - 9)) ^ 2) by apply pow2_ge_0. assert (H2 : 0 <= (z * (z - 3.2)) ^ 2) by apply pow2_ge_0. assert (H3 : 0 <= (z ^ 2 - 6.8) ^ 2) by apply pow2_ge_0.
  cbn [pow] in *. nra.
Qed.

(** ** The modified Gaussian, in units of its width *)
Section Modified.
Variables q s v0 : R.
Hypothesis Hq : 0 < q <= 1 / 9.
Hypothesis Hs : 0 < s < 1.
Hypothesis Hs2 : s ^ 2 = 1 - 3 / 2 * q ^ 2.
Hypothesis Hv0 : 0 < v0.
Hypothesis Hv02 : v0 ^ 2 = s.
Let a : R := (1 + s) / q ^ 2.
Definition vv (x : R) : R := sqrt (1 + q * x).
Definition modg (x : R) : R := exp (- (a * (vv x - v0) ^ 2)).
Definition slope (x : R) : R := a * q * (1 - v0 / vv x).
Definition curv (x : R) : R := a * q ^ 2 * v0 / (2 * vv x ^ 3).

Lemma s_low : 0.99 <= s. Proof. nra. Qed.
Lemma v0_low : 0.995 <= v0 < 1. Proof. pose proof s_low. nra. Qed.
Lemma vv_sq x : -6 <= x <= 6 -> vv x ^ 2 = 1 + q * x.
Proof. intro H. unfold vv. cbn [pow]. rewrite Rmult_1_r. apply sqrt_sqrt. nra. Qed.
Lemma vv_range x : -6 <= x <= 6 -> 0.577 <= vv x <= 1.291.
Proof.
  intro H. pose proof (vv_sq x H) as E. assert (P : 0 <= vv x) by apply sqrt_pos. nra.
Qed.
Lemma vv_derive x : -6 <= x <= 6 -> is_derive vv x (q / (2 * vv x)).
Proof.
  intro H. pose proof (vv_range x H) as P. unfold vv in *. auto_derive; [nra|]. field. lra.
Qed.
Lemma modg_derive x : -6 <= x <= 6 -> is_derive modg x (- slope x * modg x).
Proof.
  intro H. pose proof (vv_range x H) as P.
  pose proof (vv_derive x H) as D. unfold modg, slope.
  assert (D2 : is_derive (fun x => - (a * (vv x - v0) ^ 2)) x (scal (q / (2 * vv x)) (- (a * (2 * (vv x - v0)))))).
  { apply (is_derive_comp (fun v => - (a * (v - v0) ^ 2)) vv x (- (a * (2 * (vv x - v0)))) (q / (2 * vv x))); [auto_derive; [exact Logic.I|ring]|exact D]. }
  assert (D3 : is_derive (fun x => exp (- (a * (vv x - v0) ^ 2))) x (scal (scal (q / (2 * vv x)) (- (a * (2 * (vv x - v0))))) (exp (- (a * (vv x - v0) ^ 2))))).
  { apply (is_derive_comp exp (fun x => - (a * (vv x - v0) ^ 2))); [|exact D2]. apply is_derive_Reals. apply derivable_pt_lim_exp. }
  assert (Q : scal (scal (q / (2 * vv x)) (- (a * (2 * (vv x - v0))))) (exp (- (a * (vv x - v0) ^ 2))) = - (a * q * (1 - v0 / vv x)) * exp (- (a * (vv x - v0) ^ 2))).
  { unfold scal. cbn [Ring.mult ModuleSpace.scal]. unfold mult. cbn -[pow]. field. lra. }
  rewrite <- Q. exact D3.
Qed.
Lemma slope_derive x : -6 <= x <= 6 -> is_derive slope x (curv x).
Proof.
  intro H. pose proof (vv_range x H) as P. pose proof (vv_derive x H) as D. unfold slope, curv.
  assert (D2 : is_derive (fun x => a * q * (1 - v0 / vv x)) x (scal (q / (2 * vv x)) (a * q * v0 / vv x ^ 2))).
  { apply (is_derive_comp (fun v => a * q * (1 - v0 / v)) vv x (a * q * v0 / vv x ^ 2) (q / (2 * vv x))); [auto_derive; [lra|field; lra]|exact D]. }
  assert (Q : scal (q / (2 * vv x)) (a * q * v0 / vv x ^ 2) = a * q ^ 2 * v0 / (2 * vv x ^ 3)).
  { unfold scal. cbn [Ring.mult ModuleSpace.scal]. unfold mult. cbn -[pow]. field. lra. }
  rewrite <- Q. exact D2.
Qed.

(** Derivatives of a polynomial times the shape. *)
Lemma product_derives (p p1 p2 : R -> R) x : -6 <= x <= 6 -> (forall t, is_derive p t (p1 t)) -> (forall t, is_derive p1 t (p2 t)) ->
  is_derive (fun x => p x * modg x) x ((p1 x - p x * slope x) * modg x) /\
  is_derive (fun x => (p1 x - p x * slope x) * modg x) x ((p2 x - 2 * p1 x * slope x - p x * curv x + p x * slope x ^ 2) * modg x).
Proof.
  intros H D1 D2. pose proof (modg_derive x H) as Dm. pose proof (slope_derive x H) as Ds. split.
  - apply (prod_derive p modg x (p1 x) (slope x)); [apply D1|exact Dm|reflexivity].
  - apply (prod_derive (fun x => p1 x - p x * slope x) modg x (p2 x - (p1 x * slope x + p x * curv x)) (slope x)); [|exact Dm|ring].
    apply (is_derive_minus p1 (fun x => p x * slope x) x (p2 x) (p1 x * slope x + p x * curv x)); [apply D2|].
    apply (is_derive_mult p slope x (p1 x) (curv x)); [apply D1|exact Ds|intros; apply Rmult_comm].
Qed.

(** Size of the pieces. *)
Let eta : R := (1 - s) / q.
Lemma eta_range : 0 < eta <= 0.084.
Proof.
  pose proof s_low as S. assert (E : eta = 3 / 2 * q / (1 + s)). { unfold eta. apply (Rmult_eq_reg_r (q * (1 + s))); [|nra]. field_simplify; [|lra|lra]. nra. }
  rewrite E. split; [apply Rdiv_lt_0_compat; lra|]. apply (Rmult_le_reg_r (1 + s)); [lra|]. unfold Rdiv. rewrite Rmult_assoc, Rinv_l by lra. lra.
Qed.
Lemma diff_v x : -6 <= x <= 6 -> vv x - v0 = q * (x + eta) / (vv x + v0).
Proof.
  intro H. pose proof (vv_range x H) as P. pose proof (vv_sq x H) as E. apply (Rmult_eq_reg_r (vv x + v0)); [|lra].
  unfold Rdiv at 1. rewrite Rmult_assoc, Rinv_l by lra. unfold eta. replace (q * (x + (1 - s) / q) * 1) with (q * x + 1 - s) by (field; lra). nra.
Qed.
Lemma slope_bound x : -6 <= x <= 6 -> Rabs (slope x) <= 2.21 * Rabs (x + eta).
Proof.
  intro H. pose proof (vv_range x H) as P. pose proof v0_low as V. pose proof s_low as S.
  assert (E : slope x = (1 + s) / (vv x * (vv x + v0)) * (x + eta)).
  { unfold slope. replace (1 - v0 / vv x) with ((vv x - v0) / vv x) by (field; lra). rewrite (diff_v x H). unfold a. field. lra. }
  rewrite E, Rabs_mult. apply Rmult_le_compat_r; [apply Rabs_pos|].
  assert (D : 0.907 <= vv x * (vv x + v0)) by nra. rewrite Rabs_pos_eq by (apply Rlt_le, Rdiv_lt_0_compat; lra).
  apply (Rmult_le_reg_r (vv x * (vv x + v0))); [lra|]. unfold Rdiv. rewrite Rmult_assoc, Rinv_l by lra. lra.
Qed.
Lemma curv_bound x : -6 <= x <= 6 -> 0 <= curv x <= 5.22.
Proof.
  intro H. pose proof (vv_range x H) as P. pose proof v0_low as V. pose proof s_low as S.
  assert (E : curv x = (1 + s) * v0 / (2 * vv x ^ 3)). { unfold curv, a. field. lra. }
  assert (V2 : 0.3329 <= vv x ^ 2) by (cbn [pow]; nra). assert (D : 0.192 <= vv x ^ 3) by (replace (vv x ^ 3) with (vv x ^ 2 * vv x) by ring; nra).
  rewrite E. split; [apply Rlt_le, Rdiv_lt_0_compat; nra|]. apply (Rmult_le_reg_r (2 * vv x ^ 3)); [lra|]. unfold Rdiv. rewrite Rmult_assoc, Rinv_l by lra.
  assert ((1 + s) * v0 <= 2 * 1) by (apply Rmult_le_compat; lra). lra.
Qed.
Lemma exponent x : -6 <= x <= 6 -> a * (vv x - v0) ^ 2 = (1 + s) / (vv x + v0) ^ 2 * (x + eta) ^ 2.
Proof. intro H. pose proof (vv_range x H) as P. rewrite (diff_v x H). unfold a. field. lra. Qed.
Lemma exponent_low x : -6 <= x <= 6 -> 0.379 * (x + eta) ^ 2 <= a * (vv x - v0) ^ 2.
Proof.
  intro H. pose proof (vv_range x H) as P. pose proof v0_low as V. pose proof s_low as S. rewrite (exponent x H). apply Rmult_le_compat_r; [apply pow2_ge_0|].
  assert (0 < (vv x + v0) ^ 2) by (apply pow_lt; lra). assert ((vv x + v0) ^ 2 <= 2.291 ^ 2) by (apply pow_incr; lra).
  apply (Rmult_le_reg_r ((vv x + v0) ^ 2)); [lra|]. unfold Rdiv. rewrite Rmult_assoc, Rinv_l by lra. nra.
Qed.
Lemma modg_bound X K x : -6 <= x <= 6 -> 0 <= K -> X <= K * (1 + 0.379 * (x + eta) ^ 2 / 3) ^ 3 -> 0 <= X -> X * modg x <= K.
Proof.
  intros H HK HX H0. apply Rle_trans with (X * exp (- (0.379 * (x + eta) ^ 2))).
  - apply Rmult_le_compat_l; [exact H0|]. unfold modg. apply exp_le_1. pose proof (exponent_low x H). lra.
  - apply exp_bound; [pose proof (pow2_ge_0 (x + eta)); lra|exact HX|exact HK].
Qed.
Lemma modg_pos x : 0 < modg x. Proof. apply exp_pos. Qed.
Lemma modg_ends x : x = 6 \/ x = -6 -> modg x <= 1e-5.
Proof.
  intro H. assert (R : -6 <= x <= 6) by (destruct H; lra). unfold modg. eapply Rle_trans; [apply (exp_le_1 _ (- 13))|apply exp_13].
  pose proof (exponent_low x R) as E. pose proof eta_range as Et. assert (34.9 <= (x + eta) ^ 2) by (destruct H as [-> | ->]; nra). lra.
Qed.
Lemma modg_centre x : -1 <= x <= 1 -> 0.51 <= modg x.
Proof.
  intro H. assert (R : -6 <= x <= 6) by lra. pose proof (vv_range x R) as P. pose proof v0_low as V. pose proof s_low as S. pose proof eta_range as Et.
  assert (V2 : 0.94 <= vv x). { pose proof (vv_sq x R) as E. nra. }
  assert (U : a * (vv x - v0) ^ 2 <= 0.63).
  { rewrite (exponent x R). assert (B : (1 + s) / (vv x + v0) ^ 2 <= 0.5343).
    { assert (1.935 ^ 2 <= (vv x + v0) ^ 2) by (apply pow_incr; lra). apply (Rmult_le_reg_r ((vv x + v0) ^ 2)); [lra|].
      unfold Rdiv. rewrite Rmult_assoc, Rinv_l by lra. lra. }
    assert (0 <= (1 + s) / (vv x + v0) ^ 2) by (apply Rlt_le, Rdiv_lt_0_compat; [lra|apply pow_lt; lra]).
    assert (0 <= (x + eta) ^ 2 <= 1.1751) by (split; [apply pow2_ge_0|nra]).
    assert ((1 + s) / (vv x + v0) ^ 2 * (x + eta) ^ 2 <= 0.5343 * 1.1751) by (apply Rmult_le_compat; lra). lra. }
  unfold modg. eapply Rle_trans; [|apply (exp_le_1 (- (0.63))); lra]. eapply Rle_trans; [|apply exp_lower8; lra]. cbn [pow]. lra.
Qed.
Lemma modg_norm : 1.009 <= integral (points modg 0 1000).
Proof.
  apply Rle_trans with (1.98 * 0.51); [lra|]. apply central_lower; [lra|intros; left; apply modg_pos|exact modg_centre].
Qed.

Let P1 (x : R) : R := - / (1 + s) * (vv x ^ 2 + v0 * vv x - q ^ 2 / (2 * (1 + s))).
Let P2 (x : R) : R := - / (1 + s) * (x * (vv x ^ 2 + v0 * vv x) + q / (1 + s) * (vv x ^ 2 / 2 + 2 * v0 * vv x + 1 / 2 - q ^ 2 / (1 + s))).
Lemma P1_derive x : -6 <= x <= 6 -> is_derive (fun x => P1 x * modg x) x (x * modg x).
Proof.
  intro H. pose proof (vv_range x H) as P. pose proof (vv_sq x H) as E.
  assert (D : is_derive P1 x (scal (q / (2 * vv x)) (- / (1 + s) * (2 * vv x + v0)))).
  { unfold P1. apply (is_derive_comp (fun v => - / (1 + s) * (v ^ 2 + v0 * v - q ^ 2 / (2 * (1 + s)))) vv x (- / (1 + s) * (2 * vv x + v0)) (q / (2 * vv x))); [auto_derive; [exact Logic.I|]|exact (vv_derive x H)]. field. lra. }
  apply (prod_derive P1 modg x (q / (2 * vv x) * (- / (1 + s) * (2 * vv x + v0))) (slope x)); [exact D|exact (modg_derive x H)|].
  f_equal. unfold P1, slope, a. set (v := vv x) in *. assert (X : x = (v ^ 2 - 1) / q) by (rewrite E; field; lra). rewrite X.
  field_simplify_eq; [|repeat split; lra..]. rewrite <- Hv02 in *. assert (Qq : q ^ 2 = 2 / 3 * (1 - v0 ^ 4)) by lra. rewrite ?Qq. field.
Qed.
Lemma P2_derive x : -6 <= x <= 6 -> is_derive (fun x => P2 x * modg x) x ((x ^ 2 - 1) * modg x).
Proof.
  intro H. pose proof (vv_range x H) as P. pose proof (vv_sq x H) as E.
  assert (D : is_derive P2 x (- / (1 + s) * (vv x ^ 2 + v0 * vv x + x * (q / (2 * vv x) * (2 * vv x + v0)) + q / (1 + s) * (q / (2 * vv x) * (vv x + 2 * v0))))).
  { unfold P2. apply (is_derive_scal (fun x => x * (vv x ^ 2 + v0 * vv x) + q / (1 + s) * (vv x ^ 2 / 2 + 2 * v0 * vv x + 1 / 2 - q ^ 2 / (1 + s)))).
    apply (is_derive_plus (fun x => x * (vv x ^ 2 + v0 * vv x)) (fun x => q / (1 + s) * (vv x ^ 2 / 2 + 2 * v0 * vv x + 1 / 2 - q ^ 2 / (1 + s))) x
      (vv x ^ 2 + v0 * vv x + x * (q / (2 * vv x) * (2 * vv x + v0))) (q / (1 + s) * (q / (2 * vv x) * (vv x + 2 * v0)))).
    - replace (vv x ^ 2 + v0 * vv x + x * (q / (2 * vv x) * (2 * vv x + v0))) with (1 * (vv x ^ 2 + v0 * vv x) + x * (q / (2 * vv x) * (2 * vv x + v0))) by ring.
      apply (is_derive_mult (fun x => x) (fun x => vv x ^ 2 + v0 * vv x) x 1 (q / (2 * vv x) * (2 * vv x + v0))); [apply (is_derive_id x)| |intros; apply Rmult_comm].
      apply (is_derive_comp (fun v => v ^ 2 + v0 * v) vv x (2 * vv x + v0) (q / (2 * vv x))); [auto_derive; [exact Logic.I|ring]|exact (vv_derive x H)].
    - apply (is_derive_scal (fun x => vv x ^ 2 / 2 + 2 * v0 * vv x + 1 / 2 - q ^ 2 / (1 + s))).
      apply (is_derive_comp (fun v => v ^ 2 / 2 + 2 * v0 * v + 1 / 2 - q ^ 2 / (1 + s)) vv x (vv x + 2 * v0) (q / (2 * vv x))); [auto_derive; [exact Logic.I|field; lra]|exact (vv_derive x H)]. }
  apply (prod_derive P2 modg x _ (slope x) _ D (modg_derive x H)).
  f_equal. unfold P2, slope, a. set (v := vv x) in *. assert (X : x = (v ^ 2 - 1) / q) by (rewrite E; field; lra). rewrite X.
  field_simplify_eq; [|repeat split; lra..]. rewrite <- Hv02 in *. assert (Qq : q ^ 2 = 2 / 3 * (1 - v0 ^ 4)) by lra. replace (q ^ 4) with (q ^ 2 * q ^ 2) by ring. rewrite ?Qq. field.
Qed.
Lemma x_le x : Rabs x <= Rabs (x + eta) + 0.084.
Proof. pose proof eta_range. unfold Rabs. destruct (Rcase_abs x), (Rcase_abs (x + eta)); lra. Qed.
Lemma modg_first : Rabs (integral (points (fun x => x * modg x) 0 1000)) <= 0.003.
Proof.
  assert (H' : Rabs (integral (points (fun x => x * modg x) 0 1000) - (P1 6 * modg 6 - P1 (-6) * modg (-6))) <= 20 * step ^ 2).
  { apply (trap_error (fun x => P1 x * modg x) (fun x => x * modg x) (fun x => (1 - x * slope x) * modg x) (fun x => (0 - 2 * 1 * slope x - x * curv x + x * slope x ^ 2) * modg x)).
    intros t Ht. split; [now apply P1_derive|].
    destruct (product_derives (fun x => x) (fun _ => 1) (fun _ => 0) t Ht) as [D1 D2]; [intro; apply (is_derive_id t0)|intro; apply (is_derive_const 1)|].
    split; [exact D1|]. split; [exact D2|]. rewrite Rabs_mult, (Rabs_pos_eq (modg t)) by (left; apply modg_pos).
    pose proof (slope_bound t Ht) as B1. pose proof (curv_bound t Ht) as B2. pose proof (x_le t) as B3.
    apply modg_bound; [exact Ht|lra| |apply Rabs_pos]. set (z := Rabs (t + eta)) in *. replace ((t + eta) ^ 2) with (z ^ 2) by (unfold z; apply pow2_abs).
    assert (Z0 : 0 <= z) by apply Rabs_pos. assert (T0 : 0 <= Rabs t) by apply Rabs_pos. assert (S0 : 0 <= Rabs (slope t)) by apply Rabs_pos.
    assert (S2 : slope t ^ 2 <= 4.8841 * z ^ 2). { rewrite <- (pow2_abs (slope t)). nra. }
    assert (M : Rabs (0 - 2 * 1 * slope t - t * curv t + t * slope t ^ 2) <= 2 * (2.21 * z) + (z + 0.084) * (5.22 + 4.8841 * z ^ 2)).
    { replace (0 - 2 * 1 * slope t - t * curv t + t * slope t ^ 2) with (- (2 * slope t) + t * (slope t ^ 2 - curv t)) by ring.
      eapply Rle_trans; [apply Rabs_triang|]. rewrite Rabs_Ropp, !Rabs_mult, (Rabs_pos_eq 2) by lra. apply Rplus_le_compat; [lra|].
      apply Rmult_le_compat; [exact T0|apply Rabs_pos|exact B3|]. pose proof (pow2_ge_0 (slope t)). apply Rabs_le. lra. }
    eapply Rle_trans; [exact M|]. now apply poly_first. }
  assert (B : forall x, x = 6 \/ x = -6 -> Rabs (P1 x * modg x) <= 0.00002).
  { intros x Hx. pose proof (modg_ends x Hx) as M. pose proof (modg_pos x) as M0. assert (Rx : -6 <= x <= 6) by (destruct Hx; lra).
    pose proof (vv_range x Rx) as P. pose proof (vv_sq x Rx) as E. pose proof v0_low as V. pose proof s_low as S.
    rewrite Rabs_mult, (Rabs_pos_eq (modg x)) by lra. assert (Rabs (P1 x) <= 2); [|apply Rle_trans with (2 * 1e-5); [apply Rmult_le_compat; try lra; apply Rabs_pos|lra]].
    unfold P1. rewrite Rabs_mult, Rabs_Ropp. rewrite (Rabs_pos_eq (/ (1 + s))) by (apply Rlt_le, Rinv_0_lt_compat; lra).
    assert (I1 : / (1 + s) <= 0.51). { apply (Rmult_le_reg_r (1 + s)); [lra|]. rewrite Rinv_l by lra. lra. }
    assert (I0 : 0 < / (1 + s)) by (apply Rinv_0_lt_compat; lra).
    assert (Y : Rabs (vv x ^ 2 + v0 * vv x - q ^ 2 / (2 * (1 + s))) <= 3).
    { assert (0 <= q ^ 2 / (2 * (1 + s)) <= 0.01). { replace (q ^ 2 / (2 * (1 + s))) with (q ^ 2 / 2 * / (1 + s)) by (field; lra). assert (0 < q ^ 2 <= 1 / 81) by (split; [apply pow_lt; lra|cbn [pow]; nra]). nra. }
      assert (0 <= v0 * vv x <= 1.291) by nra. assert (0 <= vv x ^ 2 <= 1.667) by (split; [apply pow2_ge_0|cbn [pow]; nra]). apply Rabs_le. lra. }
    apply Rle_trans with (0.51 * 3); [apply Rmult_le_compat; try lra; apply Rabs_pos|lra]. }
  pose proof (B 6 (or_introl eq_refl)) as B1. pose proof (B (-6) (or_intror eq_refl)) as B2. unfold step in H'.
  set (J := integral _) in *. set (u := P1 6 * modg 6) in *. set (w := P1 (-6) * modg (-6)) in *.
  replace J with ((J - (u - w)) + (u + - w)) by ring. eapply Rle_trans; [apply Rabs_triang|]. pose proof (Rabs_triang u (- w)) as T. rewrite Rabs_Ropp in T. lra.
Qed.
Lemma modg_second : Rabs (integral (points (fun x => (x ^ 2 - 1) * modg x) 0 1000)) <= 0.0096.
Proof.
  assert (H' : Rabs (integral (points (fun x => (x ^ 2 - 1) * modg x) 0 1000) - (P2 6 * modg 6 - P2 (-6) * modg (-6))) <= 65 * step ^ 2).
  { apply (trap_error (fun x => P2 x * modg x) (fun x => (x ^ 2 - 1) * modg x) (fun x => (2 * x - (x ^ 2 - 1) * slope x) * modg x)
      (fun x => (2 - 2 * (2 * x) * slope x - (x ^ 2 - 1) * curv x + (x ^ 2 - 1) * slope x ^ 2) * modg x)).
    intros t Ht. split; [now apply P2_derive|].
    destruct (product_derives (fun x => x ^ 2 - 1) (fun x => 2 * x) (fun _ => 2) t Ht) as [D1 D2]; [intro; auto_derive; [exact Logic.I|ring]|intro; auto_derive; [exact Logic.I|ring]|].
    split; [exact D1|]. split; [exact D2|]. rewrite Rabs_mult, (Rabs_pos_eq (modg t)) by (left; apply modg_pos).
    pose proof (slope_bound t Ht) as B1. pose proof (curv_bound t Ht) as B2. pose proof (x_le t) as B3.
    apply modg_bound; [exact Ht|lra| |apply Rabs_pos]. set (z := Rabs (t + eta)) in *. replace ((t + eta) ^ 2) with (z ^ 2) by (unfold z; apply pow2_abs).
    assert (Z0 : 0 <= z) by apply Rabs_pos. assert (T0 : 0 <= Rabs t) by apply Rabs_pos. assert (S0 : 0 <= Rabs (slope t)) by apply Rabs_pos.
    assert (S2 : slope t ^ 2 <= 4.8841 * z ^ 2). { rewrite <- (pow2_abs (slope t)). nra. }
    assert (T2 : t ^ 2 <= (z + 0.084) ^ 2). { rewrite <- (pow2_abs t). apply pow_incr. lra. }
    assert (M : Rabs (2 - 2 * (2 * t) * slope t - (t ^ 2 - 1) * curv t + (t ^ 2 - 1) * slope t ^ 2) <= 2 + 4 * (z + 0.084) * (2.21 * z) + (1 + (z + 0.084) ^ 2) * (5.22 + 4.8841 * z ^ 2)).
    { replace (2 - 2 * (2 * t) * slope t - (t ^ 2 - 1) * curv t + (t ^ 2 - 1) * slope t ^ 2) with (2 + - (4 * t * slope t) + (t ^ 2 - 1) * (slope t ^ 2 - curv t)) by ring.
      eapply Rle_trans; [apply Rabs_triang|]. apply Rplus_le_compat.
      - eapply Rle_trans; [apply Rabs_triang|]. rewrite Rabs_Ropp, !Rabs_mult, (Rabs_pos_eq 2), (Rabs_pos_eq 4) by lra. apply Rplus_le_compat_l.
        apply Rmult_le_compat; [nra|exact S0|nra|lra].
      - rewrite Rabs_mult. pose proof (pow2_ge_0 (slope t)). pose proof (pow2_ge_0 t). apply Rmult_le_compat; try apply Rabs_pos; apply Rabs_le; lra. }
    eapply Rle_trans; [exact M|]. now apply poly_second. }
  assert (B : forall x, x = 6 \/ x = -6 -> Rabs (P2 x * modg x) <= 0.0001).
  { intros x Hx. pose proof (modg_ends x Hx) as M. pose proof (modg_pos x) as M0. assert (Rx : -6 <= x <= 6) by (destruct Hx; lra).
    pose proof (vv_range x Rx) as P. pose proof (vv_sq x Rx) as E. pose proof v0_low as V. pose proof s_low as S.
    rewrite Rabs_mult, (Rabs_pos_eq (modg x)) by lra. assert (Rabs (P2 x) <= 10); [|apply Rle_trans with (10 * 1e-5); [apply Rmult_le_compat; try lra; apply Rabs_pos|lra]].
    unfold P2. rewrite Rabs_mult, Rabs_Ropp. rewrite (Rabs_pos_eq (/ (1 + s))) by (apply Rlt_le, Rinv_0_lt_compat; lra).
    assert (I1 : / (1 + s) <= 0.51). { apply (Rmult_le_reg_r (1 + s)); [lra|]. rewrite Rinv_l by lra. lra. }
    assert (I0 : 0 < / (1 + s)) by (apply Rinv_0_lt_compat; lra).
    assert (V1 : 0 <= v0 * vv x <= 1.291) by nra. assert (V2 : 0 <= vv x ^ 2 <= 1.667) by (split; [apply pow2_ge_0|cbn [pow]; nra]).
    assert (Q2 : 0 <= q ^ 2 / (1 + s) <= 0.02). { assert (0 < q ^ 2 <= 1 / 81) by (split; [apply pow_lt; lra|cbn [pow]; nra]). unfold Rdiv. nra. }
    assert (Q1 : 0 <= q / (1 + s) <= 0.06) by (unfold Rdiv; nra).
    assert (Y : Rabs (x * (vv x ^ 2 + v0 * vv x) + q / (1 + s) * (vv x ^ 2 / 2 + 2 * v0 * vv x + 1 / 2 - q ^ 2 / (1 + s))) <= 19).
    { eapply Rle_trans; [apply Rabs_triang|]. rewrite !Rabs_mult. assert (X6 : Rabs x <= 6) by (apply Rabs_le; lra).
      rewrite (Rabs_pos_eq (vv x ^ 2 + v0 * vv x)), (Rabs_pos_eq (q / (1 + s))) by lra.
      assert (W : Rabs (vv x ^ 2 / 2 + 2 * v0 * vv x + 1 / 2 - q ^ 2 / (1 + s)) <= 5) by (apply Rabs_le; lra).
      assert (Rabs x * (vv x ^ 2 + v0 * vv x) <= 6 * 2.958) by (apply Rmult_le_compat; try lra; apply Rabs_pos).
      assert (q / (1 + s) * Rabs (vv x ^ 2 / 2 + 2 * v0 * vv x + 1 / 2 - q ^ 2 / (1 + s)) <= 0.06 * 5) by (apply Rmult_le_compat; try lra; apply Rabs_pos). lra. }
    apply Rle_trans with (0.51 * 19); [apply Rmult_le_compat; try lra; apply Rabs_pos|lra]. }
  pose proof (B 6 (or_introl eq_refl)) as B1. pose proof (B (-6) (or_intror eq_refl)) as B2. unfold step in H'.
  set (J := integral _) in *. set (u := P2 6 * modg 6) in *. set (w := P2 (-6) * modg (-6)) in *.
  replace J with ((J - (u - w)) + (u + - w)) by ring. eapply Rle_trans; [apply Rabs_triang|]. pose proof (Rabs_triang u (- w)) as T. rewrite Rabs_Ropp in T. lra.
Qed.
End Modified.
