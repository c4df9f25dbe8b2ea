(** Lemmas for C89: where the Bosch-Hale fits rise and fall with temperature. *)
From Coq Require Import Reals Lra Lia ZArith List Bool.
From Coquelicot Require Import Coquelicot.
From Verif Require Import Base Reactions Profile SpecReactions SpecProfile ProfileProofs XsData Reactivity SpecReactivity ReactivityProofs PolyPos.
Import ListNotations.
Open Scope R_scope.

(** ** The logarithm of the fit *)
Section Fit.
  Variables (D P D' P' : R -> R) (B : R).
  Definition ltheta (T : R) : R := ln T + ln (D T) - ln (P T).
  Definition lfit (T : R) : R := 5 / 6 * ltheta T - 3 / 2 * ln T - 3 * exp ((ln B - ltheta T) / 3).

  Lemma lfit_derive : forall T, 0 < T -> 0 < D T -> 0 < P T ->
    is_derive D T (D' T) -> is_derive P T (P' T) ->
    is_derive lfit T ((5 / 6 + exp ((ln B - ltheta T) / 3)) * (/ T + D' T / D T - P' T / P T) - 3 / 2 * / T).
  Proof.
    intros T HT HD HP dD dP.
    assert (dl : is_derive ltheta T (/ T + D' T / D T - P' T / P T)).
    { unfold ltheta. auto_derive.
      - split; [exact HT|]. split; [eexists; exact dD|]. split; [exact HD|]. split; [eexists; exact dP|]. split; [exact HP|exact Logic.I].
      - assert (uD : Derive (fun x : R => D x) T = D' T) by (apply is_derive_unique; exact dD).
        assert (uP : Derive (fun x : R => P x) T = P' T) by (apply is_derive_unique; exact dP). rewrite uD, uP. field. repeat split; lra. }
    unfold lfit. auto_derive.
    - repeat split; try (eexists; exact dl); exact HT.
    - assert (ul : Derive (fun x : R => ltheta x) T = / T + D' T / D T - P' T / P T) by (apply is_derive_unique; exact dl). rewrite ul. unfold Rdiv, Rminus. set (l := / T + _ + _). set (e := exp _).
      replace (1 * / T) with (/ T) by ring. set (i := / T). field.
  Qed.

  (** Sign of the derivative: the cube of the exponential is rational in T. *)
  Definition cubic (T : R) : R :=
    let G := D T * P T + T * (D' T * P T - P' T * D T) in
    let Q := 9 * (D T * P T) - 5 * G in
    216 * B * P T * (G * G * G) - T * D T * (Q * Q * Q).
  Lemma cube_lt : forall a b, a * a * a < b * b * b -> a < b.
  Proof.
    intros a b H. destruct (Rlt_le_dec a b) as [|N]; [assumption|]. exfalso.
    assert (0 <= (a - b) * (a * a + a * b + b * b)); [|nra]. apply Rmult_le_pos; [lra|]. nra.
  Qed.
  Lemma lfit_sign : forall T, 0 < T -> 0 < D T -> 0 < P T -> 0 < B ->
    0 < D T * P T + T * (D' T * P T - P' T * D T) ->
    let s := (5 / 6 + exp ((ln B - ltheta T) / 3)) * (/ T + D' T / D T - P' T / P T) - 3 / 2 * / T in
    (0 < cubic T -> 0 < s) /\ (cubic T < 0 -> s < 0).
  Proof.
    intros T HT HD HP HB HG s. set (x := exp ((ln B - ltheta T) / 3)) in *. unfold cubic.
    set (G := D T * P T + T * (D' T * P T - P' T * D T)) in *.
    assert (Px : 0 < x) by apply exp_pos.
    assert (X3 : x * x * x * (T * D T) = B * P T).
    { unfold x. rewrite <- !exp_plus. replace (_ + _ + _) with (ln B - ltheta T) by field. unfold ltheta.
      replace (ln B - (ln T + ln (D T) - ln (P T))) with (ln B + ln (P T) + (- ln T) + (- ln (D T))) by ring.
      rewrite !exp_plus, !exp_Ropp, !exp_ln by assumption. field. lra. }
    assert (Ss : s = (6 * G * x - (9 * (D T * P T) - 5 * G)) / (6 * T * (D T * P T))).
    { unfold s, G. field. repeat split; lra. }
    set (Q := 9 * (D T * P T) - 5 * G) in *.
    assert (Pd : 0 < 6 * T * (D T * P T)) by (apply Rmult_lt_0_compat; [lra|now apply Rmult_lt_0_compat]).
    assert (Key : 216 * B * P T * (G * G * G) - T * D T * (Q * Q * Q) = T * D T * ((6 * G * x) * (6 * G * x) * (6 * G * x) - Q * Q * Q)).
    { replace (216 * B * P T * (G * G * G)) with (216 * (B * P T) * (G * G * G)) by ring. rewrite <- X3. ring. }
    cbv zeta. rewrite Key. assert (PT : 0 < T * D T) by now apply Rmult_lt_0_compat.
    rewrite Ss. split; intro H.
    - apply Rdiv_lt_0_compat; [|exact Pd]. assert (Q < 6 * G * x); [|lra]. apply cube_lt. nra.
    - assert (6 * G * x < Q) by (apply cube_lt; nra). unfold Rdiv. apply Rinv_0_lt_compat in Pd. nra.
  Qed.
End Fit.

Lemma fit_exp : forall d T, 0 < T -> 0 < bhD d T -> 0 < bhD d T - bhN d T -> 0 < bg d -> 0 < mrc2 d -> 0 < c0 d ->
  fit_of d T = c0 d * exp (ln (bg d * bg d / 4) / 6 - ln (mrc2 d) / 2)
     * exp (lfit (bhD d) (fun t => bhD d t - bhN d t) (bg d * bg d / 4) T).
Proof.
  intros d T HT HD HP Hb Hm Hc. unfold fit_of, bh_fit. fold (bhN d T).
  assert (Et : bh_theta (c1 d) (c2 d) (c3 d) (c4 d) (c5 d) (c6 d) T = exp (ltheta (bhD d) (fun t => bhD d t - bhN d t) T)).
  { unfold bh_theta. fold (bhN d T). fold (bhD d T). unfold ltheta.
    unfold Rminus at 2. rewrite !exp_plus, exp_Ropp, !exp_ln by assumption. field. lra. }
  rewrite Et. set (l := ltheta _ _ T). unfold lfit. fold l. set (B := bg d * bg d / 4).
  assert (PB : 0 < B) by (unfold B; nra).
  assert (Ex : Rpower (bg d ^ 2 / (4 * exp l)) (1 / 3) = exp ((ln B - l) / 3)).
  { unfold Rpower. f_equal. replace (bg d ^ 2 / (4 * exp l)) with (B * exp (- l)).
    - rewrite ln_mult; [|exact PB|apply exp_pos]. rewrite ln_exp. field.
    - unfold B. rewrite exp_Ropp. field. apply Rgt_not_eq, exp_pos. }
  rewrite Ex. set (x := exp ((ln B - l) / 3)).
  assert (Es : sqrt (x / (mrc2 d * T ^ 3)) = exp (((ln B - l) / 3 - ln (mrc2 d) - 3 * ln T) / 2)).
  { rewrite <- (sqrt_square (exp (_ / 2))) by apply Rlt_le, exp_pos. f_equal. rewrite <- exp_plus.
    replace (_ / 2 + _ / 2) with ((ln B - l) / 3 + - ln (mrc2 d) + (- ln T + - ln T + - ln T)) by field.
    rewrite !exp_plus, !exp_Ropp, !exp_ln by assumption. fold x. field. split; lra. }
  rewrite Es. rewrite !Rmult_assoc. f_equal. rewrite <- !exp_plus. f_equal. fold x. field.
Qed.

(** ** The three fits, with integer coefficients (all multiplied by 10^9, and B_G by 10^4) *)
Section Poly.
  Variables (Dz Nz : poly) (bgz : Z).
  Definition Pz : poly := padd Dz (pscale (-1) Nz).
  Definition Gz : poly := padd (pmul Dz Pz) (pmul [0; 1]%Z (padd (pmul (pder Dz) Pz) (pscale (-1) (pmul (pder Pz) Dz)))).
  Definition Qz : poly := padd (pscale 9 (pmul Dz Pz)) (pscale (-5) Gz).
  Definition Mz : poly :=
    padd (pscale (54 * (bgz * bgz)) (pmul Pz (pmul Gz (pmul Gz Gz))))
         (pscale (-100000000) (pmul [0; 1]%Z (pmul Dz (pmul Qz (pmul Qz Qz))))).

  Variables (d : bh_coeffs).
  Let S := 10 ^ 9.
  Hypotheses (HD : forall T, peval Dz T = S * bhD d T) (HN : forall T, peval Nz T = S * bhN d T)
    (Hb : IZR bgz = 10 ^ 4 * bg d) (b0 : 0 < bg d) (m0 : 0 < mrc2 d) (k0 : 0 < c0 d).

  Lemma S_pos : 0 < S. Proof. unfold S. apply pow_lt. lra. Qed.
  Lemma HPz : forall T, peval Pz T = S * (bhD d T - bhN d T).
  Proof. intro T. unfold Pz. rewrite peval_add, peval_scale, HD, HN. ring. Qed.
  Lemma derive_scaled : forall (p : poly) (f : R -> R) T, (forall t, peval p t = S * f t) -> is_derive f T (peval (pder p) T / S).
  Proof.
    intros p f T H. pose proof S_pos as PS. apply (is_derive_ext (fun t => peval p t / S)); [intro t; assert (Q : peval p t / S = f t) by (rewrite H; field; lra); exact Q|].
    assert (A : is_derive (peval p) T (peval (pder p) T)) by (apply is_derive_Reals, peval_derivable).
    unfold Rdiv. apply (is_derive_ext (fun t => / S * peval p t)); [intro t; apply Rmult_comm|]. rewrite Rmult_comm.
    apply (is_derive_scal (peval p) T (/ S)). exact A.
  Qed.

  Lemma fit_slope : forall a b e, (0 <= a)%Z -> positive_on a b e Dz = true -> positive_on a b e Pz = true -> positive_on a b e Gz = true ->
    (positive_on a b e Mz = true -> forall x y, 0 < x -> IZR a / IZR e <= x -> x < y -> y < IZR b / IZR e -> fit_of d x < fit_of d y) /\
    (positive_on a b e (pscale (-1) Mz) = true -> forall x y, 0 < x -> IZR a / IZR e <= x -> x < y -> y < IZR b / IZR e -> fit_of d y < fit_of d x).
  Proof.
    intros a b e Ha PD PP PG. pose proof S_pos as PS.
    set (D' := fun T => peval (pder Dz) T / S). set (P := fun t => bhD d t - bhN d t). set (P' := fun T => peval (pder Pz) T / S).
    set (B := bg d * bg d / 4). assert (PB : 0 < B) by (unfold B; nra).
    assert (In : forall T, IZR a / IZR e <= T -> T < IZR b / IZR e -> 0 < bhD d T /\ 0 < P T /\ 0 < bhD d T * P T + T * (D' T * P T - P' T * bhD d T)).
    { intros T L U. pose proof (positive_on_spec _ _ _ _ _ PD L U) as Q1. pose proof (positive_on_spec _ _ _ _ _ PP L U) as Q2.
      pose proof (positive_on_spec _ _ _ _ _ PG L U) as Q3. rewrite HD in Q1. rewrite HPz in Q2. split; [nra|]. split; [unfold P; nra|].
      unfold Gz in Q3. rewrite peval_add, !peval_mul, peval_add, peval_scale, !peval_mul, HD, HPz in Q3. cbn [peval] in Q3.
      assert (0 < S * S) by nra. apply (Rmult_lt_reg_l (S * S)); [assumption|]. rewrite Rmult_0_r. eapply Rlt_le_trans; [exact Q3|]. right.
      unfold D', P', P. field. lra. }
    assert (Cub : forall T, peval Mz T = 10 ^ 8 * S ^ 7 * cubic (bhD d) P D' P' B T).
    { intro T. unfold Mz, Qz. assert (EG : peval Gz T = S * S * (bhD d T * P T + T * (D' T * P T - P' T * bhD d T))).
      { unfold Gz. rewrite peval_add, !peval_mul, peval_add, peval_scale, !peval_mul, HD, HPz. cbn [peval]. unfold D', P', P. field. lra. }
      rewrite peval_add, !peval_scale, !peval_mul, peval_add, !peval_scale, peval_mul, EG, HD, HPz. unfold cubic.
      fold (P T). set (G := bhD d T * P T + _). rewrite mult_IZR, mult_IZR, Hb. unfold B.
      cbn [peval]. generalize (bhD d T) (P T) G S. intros. field. }
    assert (MV : forall x y, 0 < x -> IZR a / IZR e <= x -> x < y -> y < IZR b / IZR e ->
      exists c, x < c < y /\ lfit (bhD d) P B y - lfit (bhD d) P B x = ((5 / 6 + exp ((ln B - ltheta (bhD d) P c) / 3)) * (/ c + D' c / bhD d c - P' c / P c) - 3 / 2 * / c) * (y - x)).
    { intros x y H0 L H U. destruct (MVT_cor2 (lfit (bhD d) P B) (fun c => (5 / 6 + exp ((ln B - ltheta (bhD d) P c) / 3)) * (/ c + D' c / bhD d c - P' c / P c) - 3 / 2 * / c) x y H) as (c & E & R).
      - intros c [C1 C2]. destruct (In c) as (I1 & I2 & _); [lra|lra|]. apply is_derive_Reals.
        apply (lfit_derive (bhD d) P D' P' B); try assumption; [lra| |]; apply derive_scaled; [exact HD|exact HPz].
      - exists c. split; [exact R|exact E]. }
    assert (FE : forall T, 0 < T -> IZR a / IZR e <= T -> T < IZR b / IZR e -> fit_of d T = c0 d * exp (ln B / 6 - ln (mrc2 d) / 2) * exp (lfit (bhD d) P B T)).
    { intros T H0 L U. destruct (In T L U) as (I1 & I2 & _). now apply fit_exp. }
    assert (PK : 0 < c0 d * exp (ln B / 6 - ln (mrc2 d) / 2)) by (apply Rmult_lt_0_compat; [exact k0|apply exp_pos]).
    assert (P8 : 0 < 10 ^ 8 * S ^ 7) by (apply Rmult_lt_0_compat; apply pow_lt; lra).
    split; intros PM x y H0 L H U; destruct (MV x y H0 L H U) as (c & [C1 C2] & E);
      (destruct (In c) as (I1 & I2 & I3); [lra|lra|]);
      destruct (lfit_sign (bhD d) P D' P' B c) as [S1 S2]; try assumption; try lra;
      pose proof (positive_on_spec _ _ _ _ c PM ltac:(lra) ltac:(lra)) as Q; rewrite ?peval_scale, Cub in Q;
      (rewrite (FE x) by lra); (rewrite (FE y) by lra); apply Rmult_lt_compat_l; try exact PK; apply exp_increasing.
    - assert (0 < cubic (bhD d) P D' P' B c) by (generalize dependent (cubic (bhD d) P D' P' B c); intros; nra). specialize (S1 H1). nra.
    - assert (cubic (bhD d) P D' P' B c < 0) by (generalize dependent (cubic (bhD d) P D' P' B c); intros; nra). specialize (S2 H1). nra.
  Qed.
End Poly.

Definition D_DT : poly := [1000000000; 75188600; 13500000; 13660]%Z.
Definition N_DT : poly := [0; 15136100; 4606430; -106750]%Z.
Definition D_DDn : poly := [1000000000; 7682220; -2964]%Z.
Definition N_DDn : poly := [0; 5857780]%Z.
Definition D_DDp : poly := [1000000000; 1991670; 10506]%Z.
Definition N_DDp : poly := [0; 3412670]%Z.

Lemma DT_rises : forall x y, 0 < x -> x < y -> y <= 66.5 -> fit_of bh_DT x < fit_of bh_DT y.
Proof.
  intros x y H0 H U.
  destruct (fit_slope D_DT N_DT 343827 bh_DT) with (a := 0%Z) (b := 66501%Z) (e := 1000%Z) as [K _]; try (vm_compute; reflexivity).
  - intro T. unfold bhD, D_DT. cbn [peval bh_DT c2 c4 c6]. cbn [pow]; lra.
  - intro T. unfold bhN, N_DT. cbn [peval bh_DT c1 c3 c5]. cbn [pow]; lra.
  - cbn [bh_DT bg]. cbn [pow]; lra.
  - cbn [bh_DT bg]. lra.
  - cbn [bh_DT mrc2]. lra.
  - cbn [bh_DT c0]. lra.
  - lia.
  - apply K; try (vm_compute; reflexivity); lra.
Qed.
Lemma DT_falls : forall x y, 66.7 <= x -> x < y -> y <= 100 -> fit_of bh_DT y < fit_of bh_DT x.
Proof.
  intros x y H0 H U.
  destruct (fit_slope D_DT N_DT 343827 bh_DT) with (a := 66700%Z) (b := 100001%Z) (e := 1000%Z) as [_ K]; try (vm_compute; reflexivity).
  - intro T. unfold bhD, D_DT. cbn [peval bh_DT c2 c4 c6]. cbn [pow]; lra.
  - intro T. unfold bhN, N_DT. cbn [peval bh_DT c1 c3 c5]. cbn [pow]; lra.
  - cbn [bh_DT bg]. cbn [pow]; lra.
  - cbn [bh_DT bg]. lra.
  - cbn [bh_DT mrc2]. lra.
  - cbn [bh_DT c0]. lra.
  - lia.
  - apply K; try (vm_compute; reflexivity); lra.
Qed.
Lemma DDn_rises : forall x y, 0 < x -> x < y -> y <= 900 -> fit_of bh_DDn x < fit_of bh_DDn y.
Proof.
  intros x y H0 H U.
  destruct (fit_slope D_DDn N_DDn 313970 bh_DDn) with (a := 0%Z) (b := 901%Z) (e := 1%Z) as [K _]; try (vm_compute; reflexivity).
  - intro T. unfold bhD, D_DDn. cbn [peval bh_DDn c2 c4 c6]. cbn [pow]; lra.
  - intro T. unfold bhN, N_DDn. cbn [peval bh_DDn c1 c3 c5]. cbn [pow]; lra.
  - cbn [bh_DDn bg]. cbn [pow]; lra.
  - cbn [bh_DDn bg]. lra.
  - cbn [bh_DDn mrc2]. lra.
  - cbn [bh_DDn c0]. lra.
  - lia.
  - apply K; try (vm_compute; reflexivity); lra.
Qed.
Lemma DDp_rises : forall x y, 0 < x -> x < y -> y <= 343 -> fit_of bh_DDp x < fit_of bh_DDp y.
Proof.
  intros x y H0 H U.
  destruct (fit_slope D_DDp N_DDp 313970 bh_DDp) with (a := 0%Z) (b := 34301%Z) (e := 100%Z) as [K _]; try (vm_compute; reflexivity).
  - intro T. unfold bhD, D_DDp. cbn [peval bh_DDp c2 c4 c6]. cbn [pow]; lra.
  - intro T. unfold bhN, N_DDp. cbn [peval bh_DDp c1 c3 c5]. cbn [pow]; lra.
  - cbn [bh_DDp bg]. cbn [pow]; lra.
  - cbn [bh_DDp bg]. lra.
  - cbn [bh_DDp mrc2]. lra.
  - cbn [bh_DDp c0]. lra.
  - lia.
  - apply K; try (vm_compute; reflexivity); lra.
Qed.
