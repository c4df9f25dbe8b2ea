(** Lemmas for C103: the modified Gaussian. *)
From Coq Require Import ZArith Bool Reals Lra Lia List Permutation.
From Flocq Require Import Core.Core IEEE754.BinarySingleNaN.
From Verif Require Import Base FloatComp FloatCompProofs FloatCompAcc FloatSource SpecFloatSource FloatSourceProofs FloatSpace FloatSpaceProofs FloatProfileProofs.
From Verif Require Import FloatReactivity SpecFloatReactivity FloatReactivityProofs FloatGeometryProofs.
From Verif Require Import Energy SpecEnergy EnergyProofs FloatEnergy SpecFloatEnergy FloatEnergyProofs FloatSpectrumProofs FloatGaussProofs.
Open Scope R_scope.
Local Notation bp := (bpow radix2).
Local Notation sized := FloatReactivityProofs.near.

Lemma scale_small x : / 1000000000 <= x <= 1000000000000 -> scale x.
Proof.
  intro H. assert (bp (-200) <= bp (-30)) by (apply bpow_le; lia). assert (bp 40 <= bp 200) by (apply bpow_le; lia). change (bp (-30)) with (/ 1073741824) in *. change (bp 40) with 1099511627776 in *. unfold scale. lra.
Qed.
Lemma rclose_size r x y : 0 <= r -> r * uu <= / 100 -> rclose r x y -> y / 2 <= x <= 2 * y.
Proof. intros Hr S R. pose proof (rclose_abs _ _ _ Hr S R) as A. apply Rabs_le_inv in A. assert (0 <= y) by apply R. assert (1.011 * (r * uu) * y <= / 50 * y) by (apply Rmult_le_compat_r; lra). lra. Qed.
Lemma bp_double a : bp (a + 1) = 2 * bp a.
Proof. rewrite <- bp_1, bp_mul. f_equal. lia. Qed.
Lemma big_range X Y : / 1000000000000 <= Y <= 1000000000000 -> Y / 2 <= X <= 2 * Y -> normal X.
Proof.
  intros H H'. apply (normal_of X (-45) 45); [|lia|lia]. change (bp (-45)) with (/ 35184372088832). change (bp 45) with 35184372088832. lra.
Qed.
(** Products and quotients of numbers known up to a relative error. *)
Lemma fmul_r (x y : f64) X Y r r' : fin_nn x -> fin_nn y -> rclose r (B2R x) X -> rclose r' (B2R y) Y -> 0 <= r + r' -> (r + r') * uu <= / 100 -> / 1000000000000 <= X * Y <= 1000000000000 ->
  fin_nn (fmul x y) /\ rclose (r + r' + 1.001) (B2R (fmul x y)) (X * Y).
Proof.
  intros Fx Fy Rx Ry H0 H1 B. pose proof (rclose_mult _ _ _ _ _ _ Rx Ry) as R. pose proof (rclose_size _ _ _ H0 H1 R) as S.
  destruct (fmul_close x y Fx Fy (big_range _ _ B S)) as [F C]. split; [exact F|]. apply rclose_of_close in C. change (INR 1) with 1 in C. eapply rclose_weaken; [|exact (rclose_trans _ _ _ _ _ C R)]. lra.
Qed.
Lemma fdiv_r (x y : f64) X Y r r' : fin_nn x -> fin_nn y -> rclose r (B2R x) X -> rclose r' (B2R y) Y -> 0 < Y -> 0 <= r + r' -> (r + r') * uu <= / 100 -> / 1000000000000 <= X / Y <= 1000000000000 ->
  fin_nn (fdiv x y) /\ rclose (r + r' + 1.001) (B2R (fdiv x y)) (X / Y).
Proof.
  intros Fx Fy Rx Ry HY H0 H1 B. pose proof (rclose_div _ _ _ _ _ _ Rx Ry HY) as R. pose proof (rclose_size _ _ _ H0 H1 R) as S.
  destruct (fdiv_close x y Fx Fy (rclose_pos _ _ _ Ry HY) (big_range _ _ B S)) as [F C]. split; [exact F|]. apply rclose_of_close in C. change (INR 1) with 1 in C. eapply rclose_weaken; [|exact (rclose_trans _ _ _ _ _ C R)]. lra.
Qed.
Lemma int_r n : (0 < n < 2 ^ 53)%Z -> fin_nn (f64_of_Z n) /\ rclose 0 (B2R (f64_of_Z n)) (IZR n).
Proof. intro H. destruct (f64_of_Z_exact n ltac:(lia)) as [F V]. assert (0 < IZR n) by (apply IZR_lt; lia). split; [split; [exact F|rewrite V; lra]|]. rewrite V. apply rclose_refl; lra. Qed.
Lemma lit_r n k X : (0 < n < 2 ^ 53)%Z -> (0 <= k <= 22)%Z -> X = IZR n / IZR (10 ^ k) -> / 1000000000 <= X <= 1000000000000 -> fin_nn (dec64 n k) /\ rclose 1.001 (B2R (dec64 n k)) X.
Proof.
  intros Hn Hk E B. destruct (near_lit n k X (-40) 40 Hn Hk E ltac:(lia)) as (F & C & _).
  { change (bp (-40)) with (/ 1099511627776). change (bp 40) with 1099511627776. lra. }
  split; [exact F|]. apply rclose_of_close in C. change (INR 1) with 1 in C. eapply rclose_weaken; [|exact C]. lra.
Qed.
(** Square root of a number known up to an absolute error. *)
Lemma fsqrt_val (f : f64) : is_finite f = true -> / 1000000 <= B2R f <= 1000000 -> is_finite (fsqrt f) = true /\ Rabs (B2R (fsqrt f) - sqrt (B2R f)) <= 1.011 * uu * sqrt (B2R f).
Proof.
  intros F B. pose proof uu_pos. pose proof uu_1e15.
  assert (N : sized (2 * 0) f (B2R f) (2 * -10) (2 * 10)). { apply near_exact; [exact F|]. change (bp (2 * -10)) with (/ 1048576). change (bp (2 * 10)) with 1048576. lra. }
  destruct (near_sqrt 0 f (B2R f) (-10) 10 ltac:(tn) N ltac:(lia) ltac:(lia)) as (A & C & _). split; [apply A|]. apply (close_abs (0 + 1)) in C; [|tn]. eapply Rle_trans; [exact C|]. apply Rmult_le_compat_r; [apply sqrt_pos|]. cbn [Nat.add INR]. lra.
Qed.
Lemma sqrt_diff x y c : 0 <= x -> 0 < y -> 0 < c -> c <= sqrt x + sqrt y -> Rabs (sqrt x - sqrt y) <= Rabs (x - y) / c.
Proof.
  intros Hx Hy Hc H. apply (Rmult_le_reg_r c); [exact Hc|]. unfold Rdiv. rewrite Rmult_assoc, Rinv_l, Rmult_1_r by lra.
  replace (x - y) with ((sqrt x - sqrt y) * (sqrt x + sqrt y)). 2:{ replace ((sqrt x - sqrt y) * (sqrt x + sqrt y)) with (sqrt x * sqrt x - sqrt y * sqrt y) by ring. rewrite !sqrt_sqrt by lra. reflexivity. }
  rewrite Rabs_mult. apply Rmult_le_compat_l; [apply Rabs_pos|]. eapply Rle_trans; [exact H|apply Rle_abs].
Qed.
Lemma sqrt_ge c M x : 0 <= c -> 0 <= M -> c * c * M <= x -> c * sqrt M <= sqrt x.
Proof. intros Hc HM H. rewrite <- (sqrt_square c Hc) at 1. rewrite <- sqrt_mult_alt by nra. now apply sqrt_le_1_alt. Qed.
Lemma sqrt_le c M x : 0 <= c -> 0 <= M -> x <= c * c * M -> sqrt x <= c * sqrt M.
Proof. intros Hc HM H. rewrite <- (sqrt_square c Hc) at 1. rewrite <- sqrt_mult_alt by nra. now apply sqrt_le_1_alt. Qed.
Lemma fsqrt_near M e (f : f64) x c : 1000 <= M <= 20000 -> 0 <= e <= 1000 -> near M e f x -> 0.5 <= c -> c * c * M <= x <= 1.6 * M -> near (sqrt M) (e / (1.99 * c) + 1.3) (fsqrt f) (sqrt x).
Proof.
  intros HM He [F E] Hc B. pose proof uu_pos as U0. pose proof uu_1e15 as U. assert (UM : e * (uu * M) <= / 1000000 * M).
  { rewrite <- Rmult_assoc. apply Rmult_le_compat_r; [lra|]. apply Rle_trans with (1000 * uu); [apply Rmult_le_compat_r; lra|lra]. }
  assert (cc : 0.25 <= c * c) by nra. assert (X : 0.25 * M <= x) by nra. assert (E' := E). apply Rabs_le_inv in E'.
  destruct (fsqrt_val f F ltac:(lra)) as [FS ES]. split; [exact FS|].
  assert (R1 : c * sqrt M <= sqrt x) by (apply sqrt_ge; lra). assert (R0 : 0 < sqrt M) by (apply sqrt_lt_R0; lra). pose proof (sqrt_sqrt M ltac:(lra)) as SM.
  assert (R2 : 0.99 * (c * sqrt M) <= sqrt (B2R f)).
  { apply Rle_trans with (0.99 * sqrt x); [apply Rmult_le_compat_l; lra|]. apply sqrt_ge; lra. }
  assert (R3 : sqrt (B2R f) <= 1.27 * sqrt M) by (apply sqrt_le; lra).
  assert (P : 0 < 1.99 * c * sqrt M) by (apply Rmult_lt_0_compat; lra).
  pose proof (sqrt_diff (B2R f) x (1.99 * c * sqrt M) ltac:(lra) ltac:(lra) P ltac:(lra)) as D.
  assert (D2 : Rabs (B2R f - x) / (1.99 * c * sqrt M) <= e / (1.99 * c) * (uu * sqrt M)).
  { apply (Rmult_le_reg_r (1.99 * c * sqrt M)); [exact P|]. unfold Rdiv at 1. rewrite Rmult_assoc, Rinv_l, Rmult_1_r by lra. eapply Rle_trans; [exact E|]. right. rewrite <- SM at 1. field. lra. }
  replace (B2R (fsqrt f) - sqrt x) with ((B2R (fsqrt f) - sqrt (B2R f)) + (sqrt (B2R f) - sqrt x)) by ring. eapply Rle_trans; [apply Rabs_triang|].
  assert (1.011 * uu * sqrt (B2R f) <= 1.3 * (uu * sqrt M)). { replace (1.3 * (uu * sqrt M)) with (uu * (1.3 * sqrt M)) by ring. replace (1.011 * uu * sqrt (B2R f)) with (uu * (1.011 * sqrt (B2R f))) by ring. apply Rmult_le_compat_l; lra. }
  lra.
Qed.

Section MGauss.
  Variables (spow : f64 -> f64 -> f64) (vexp : nat -> f64 -> f64) (np_sum : list f64 -> f64).
  Hypotheses (Sp : good_pow spow) (Ve : forall i, good_exp (vexp i)) (Hsum : forall l, sums l (np_sum l)).
  Variables (m s : f64) (mu sg : R).
  Hypotheses (Fm : is_finite m = true) (Fs : is_finite s = true) (Em : Rabs (B2R m - mu) <= 5 * (uu * mu)) (Es : Rabs (B2R s - sg) <= 12 * (uu * sg)).
  Hypotheses (Kl : 10 * sg <= mu) (Kh : mu <= 8192 * sg) (Ml : 1024 <= mu) (Mh : mu <= 16384).
  Let ka : R := mu / sg.
  Local Notation ee := (e64 m s).
  Local Notation EE := (grid_energy mu sg).
  Let a : R := 1 - 3 / 2 * (/ ka * / ka).
  Let sq : R := sqrt a.
  Let y : R := 3 / 2 * (/ ka * / ka).
  Lemma m_close : rclose 5.1 (B2R m) mu /\ fin_nn m.
  Proof.
    pose proof uu_pos. pose proof uu_1e15. split; [eapply rclose_weaken; [|apply (rclose_of_abs 5); [lra|lra|lra|]]; [lra|]; eapply Rle_trans; [exact Em|]; lra|]. split; [exact Fm|]. assert (E := Em). apply Rabs_le_inv in E.
    assert (uu * mu <= / 1000000 * mu) by (apply Rmult_le_compat_r; lra). lra.
  Qed.
  Lemma ka_facts : 10 <= ka <= 8192 /\ mu = ka * sg /\ / ka <= 0.1 /\ 0.0001 <= / ka.
  Proof.
    destruct (ka_range mu sg Kl Kh Ml Mh) as [K E]. fold ka in K, E. split; [exact K|]. split; [exact E|]. split; [replace 0.1 with (/ 10) by lra; apply Rinv_le_contravar; lra|]. replace 0.0001 with (/ 10000) by lra. apply Rinv_le_contravar; lra.
  Qed.
  Lemma y_size : 0.00000001 <= y <= 0.015 /\ 0.985 <= a < 1 /\ 0.99 <= sq < 1 /\ a = sq * sq.
  Proof.
    destruct ka_facts as (K & _ & I1 & I0). assert (Y : 0.00000001 <= / ka * / ka <= 0.01) by (split; nra). unfold a. fold y. assert (YB : 0.00000001 <= y <= 0.015) by (unfold y; lra). split; [exact YB|]. split; [lra|].
    assert (A : 0.985 <= a < 1) by (unfold a; fold y; lra). assert (S1 : 0.99 <= sq).
    { apply (Rsqr_incr_0_var 0.99); [|apply sqrt_pos]. unfold sq. rewrite Rsqr_sqrt by lra. unfold Rsqr. lra. }
    assert (S2 : sq < 1). { unfold sq. rewrite <- sqrt_1. apply sqrt_lt_1_alt. lra. } split; [lra|]. unfold a in A. fold y in A. fold y. symmetry. unfold sq, a. fold y. apply sqrt_sqrt. lra.
  Qed.
  Let y64 : f64 := fmul (dec64 15 1) (spow (fdiv s m) f2).
  Lemma y64_ok : fin_nn y64 /\ Rabs (B2R y64 - y) <= 0.74 * uu.
  Proof.
    pose proof uu_pos. pose proof uu_1e15. destruct ka_facts as (K & KM & I1 & I0). destruct m_close as [Rm Fnm]. pose proof (sg_size mu sg Kl Kh Ml Mh) as Sz. pose proof (s_close s mu sg Es Kl Kh Ml Mh) as Rs.
    pose proof (s_value s mu sg Es Kl Kh Ml Mh) as Vs. assert (Fns : fin_nn s) by (split; [exact Fs|lra]).
    assert (EK : sg / mu = / ka) by (unfold ka; field; lra).
    destruct (fdiv_r s m sg mu 12.24 5.1 Fns Fnm Rs Rm ltac:(lra) ltac:(lra) ltac:(lra)) as [F1 R1]; [rewrite EK; lra|]. rewrite EK in R1. pose proof (rclose_size (12.24 + 5.1 + 1.001) _ _ ltac:(lra) ltac:(lra) R1) as S1.
    destruct (square_ok spow (fdiv s m) (/ ka) (12.24 + 5.1 + 1.001) Sp (proj1 F1) ltac:(lra) R1 ltac:(lra)) as [F2 R2].
    { assert (bp (-100) <= bp (-20)) by (apply bpow_le; lia). assert (bp 20 <= bp 100) by (apply bpow_le; lia). change (bp (-20)) with (/ 1048576) in *. change (bp 20) with 1048576 in *. lra. }
    destruct (lit_r 15 1 (3 / 2) ltac:(lia) ltac:(lia)) as [F3 R3]; [change (10 ^ 1)%Z with 10%Z; lra|lra|].
    destruct y_size as (Y & _).
    destruct (fmul_r (dec64 15 1) _ (3 / 2) (/ ka * / ka) 1.001 (9.01 + 2 * (12.24 + 5.1 + 1.001)) F3 F2 R3 R2 ltac:(lra) ltac:(lra)) as [F4 R4]; [fold y; lra|]. fold y64 in F4, R4. fold y in R4.
    split; [exact F4|]. eapply Rle_trans; [apply (rclose_abs _ _ _ (ltac:(lra) : 0 <= 1.001 + (9.01 + 2 * (12.24 + 5.1 + 1.001)) + 1.001) ltac:(lra) R4)|].
    set (r := 1.001 + (9.01 + 2 * (12.24 + 5.1 + 1.001)) + 1.001) in *. assert (r <= 48) by (unfold r; lra). assert (r * uu * y <= 48 * uu * 0.015) by (apply Rmult_le_compat; try lra; [apply Rmult_le_pos; unfold r; lra|apply Rmult_le_compat_r; lra]). lra.
  Qed.
  Let fac : f64 := fsub f1 y64.
  Lemma fac_ok : near 1 1.75 fac a.
  Proof.
    pose proof uu_pos. pose proof uu_1e15. destruct y64_ok as [[F P] E]. destruct y_size as (Y & _). destruct f1_value as [F1 V1]. assert (E' := E). apply Rabs_le_inv in E'.
    destruct (fsub_about 1 1 f1 y64 (scale_of 1 ltac:(lra)) (K30 1 ltac:(lra)) F1 F) as [FF EF]; [rewrite V1; apply Rabs_le; lra|]. split; [exact FF|]. fold fac in EF. rewrite V1 in EF.
    replace (B2R fac - a) with ((B2R fac - (1 - B2R y64)) + (y - B2R y64)) by (unfold a; fold y; ring). eapply Rle_trans; [apply Rabs_triang|]. rewrite (Rabs_minus_sym y). lra.
  Qed.
  Let sf : f64 := fsqrt fac.
  Lemma sf_ok : near 1 1.92 sf sq.
  Proof.
    pose proof uu_pos. pose proof uu_1e15. destruct fac_ok as [F E]. destruct y_size as (Y & A & S & Q). assert (E' := E). apply Rabs_le_inv in E'.
    destruct (fsqrt_val fac F ltac:(lra)) as [FS ES]. split; [exact FS|]. fold sf in ES.
    assert (R1 : 0.99 <= sqrt (B2R fac)). { replace 0.99 with (0.99 * sqrt 1) by (rewrite sqrt_1; lra). apply sqrt_ge; lra. }
    assert (R2 : sqrt (B2R fac) <= 1.001). { replace 1.001 with (1.001 * sqrt 1) by (rewrite sqrt_1; lra). apply sqrt_le; lra. }
    pose proof (sqrt_diff (B2R fac) a 1.98 ltac:(lra) ltac:(lra) ltac:(lra) ltac:(fold sq; lra)) as D. fold sq in D.
    replace (B2R sf - sq) with ((B2R sf - sqrt (B2R fac)) + (sqrt (B2R fac) - sq)) by ring. eapply Rle_trans; [apply Rabs_triang|].
    assert (1.011 * uu * sqrt (B2R fac) <= 1.013 * uu). { replace (1.013 * uu) with (uu * 1.013) by ring. replace (1.011 * uu * sqrt (B2R fac)) with (uu * (1.011 * sqrt (B2R fac))) by ring. apply Rmult_le_compat_l; lra. }
    lra.
  Qed.
  Let d0 : R := sq - a.
  Lemma d0_size : 0.74 * (/ ka * / ka) <= d0 <= 0.7539 * (/ ka * / ka) /\ 0 < / ka * / ka <= 0.01.
  Proof.
    destruct y_size as (Y & A & S & Q). destruct ka_facts as (K & _ & I1 & I0). assert (P : 0 < / ka * / ka <= 0.01) by (split; nra). split; [|exact P]. assert (E : (1 - sq) * (1 + sq) = 3 / 2 * (/ ka * / ka)) by (replace ((1 - sq) * (1 + sq)) with (1 - sq * sq) by ring; rewrite <- Q; unfold a; ring).
    assert (D : d0 = sq * (1 - sq)) by (unfold d0; rewrite Q; ring). rewrite D. set (z := / ka * / ka) in *. clearbody z. split; nra.
  Qed.
  Let dd : f64 := fsub sf fac.
  Lemma dd_ok : fin_nn dd /\ rclose (5.2 * (ka * ka)) (B2R dd) d0.
  Proof.
    pose proof uu_pos. pose proof uu_1e15. destruct fac_ok as [F E]. destruct sf_ok as [FS ES]. destruct d0_size as [D Z]. destruct ka_facts as (K & _ & I1 & I0). assert (E' := E). apply Rabs_le_inv in E'. assert (ES' := ES). apply Rabs_le_inv in ES'.
    assert (B : Rabs (B2R sf - B2R fac) <= 1 * / 16) by (apply Rabs_le; unfold d0 in D; lra).
    destruct (fsub_about (/ 16) 1 sf fac (scale_of (/ 16) ltac:(lra)) (K30 1 ltac:(lra)) FS F B) as [FD ED]. fold dd in FD, ED.
    assert (T : Rabs (B2R dd - d0) <= 3.75 * uu).
    { replace (B2R dd - d0) with ((B2R dd - (B2R sf - B2R fac)) + ((B2R sf - sq) - (B2R fac - a))) by (unfold d0; ring). eapply Rle_trans; [apply Rabs_triang|]. pose proof (Rabs_triang (B2R sf - sq) (- (B2R fac - a))) as TR. rewrite Rabs_Ropp in TR. unfold Rminus at 3. lra. }
    assert (KK : ka * ka * (/ ka * / ka) = 1) by (field; lra). assert (K2 : 100 <= ka * ka <= 8192 * 8192) by (split; nra).
    assert (T2 : Rabs (B2R dd - d0) <= 5.09 * (ka * ka) * uu * d0).
    { eapply Rle_trans; [exact T|]. replace (5.09 * (ka * ka) * uu * d0) with (5.09 * uu * (ka * ka * d0)) by ring. assert (0.74 <= ka * ka * d0). { rewrite <- (Rmult_1_r 0.74), <- KK. replace (0.74 * (ka * ka * (/ ka * / ka))) with (ka * ka * (0.74 * (/ ka * / ka))) by ring. apply Rmult_le_compat_l; lra. }
      assert (5.09 * uu * 0.74 <= 5.09 * uu * (ka * ka * d0)) by (apply Rmult_le_compat_l; lra). lra. }
    assert (SM : 5.09 * (ka * ka) * uu <= / 100) by (apply Rle_trans with (5.09 * (8192 * 8192) * / 1000000000000000); [apply Rmult_le_compat; lra|lra]).
    assert (R : rclose (1.02 * (5.09 * (ka * ka))) (B2R dd) d0) by (apply rclose_of_abs; [lra|exact SM|lra|exact T2]).
    split; [split; [exact FD|apply R]|]. eapply rclose_weaken; [|exact R]. lra.
  Qed.
  Let W : R := 4 / 3 * (mu * mu) * d0.
  Let w64 : f64 := fmul (fmul (fdiv (f64_of_Z 4) (f64_of_Z 3)) (spow m f2)) dd.
  Lemma W_size : 0.98 * (sg * sg) <= W <= 1.006 * (sg * sg).
  Proof.
    destruct d0_size as [D Z]. destruct ka_facts as (K & KM & _). pose proof (sg_size mu sg Kl Kh Ml Mh) as Sz. assert (E : mu * mu * (/ ka * / ka) = sg * sg) by (rewrite KM; field; lra).
    assert (P : 0 <= mu * mu) by nra. unfold W. rewrite <- E. set (z := / ka * / ka) in *. set (M := mu * mu) in *. clearbody z M. split.
    - apply Rle_trans with (4 / 3 * M * (0.74 * z)); [assert (0 <= M * z) by (apply Rmult_le_pos; lra); lra|apply Rmult_le_compat_l; lra].
    - apply Rle_trans with (4 / 3 * M * (0.7539 * z)); [apply Rmult_le_compat_l; lra|assert (0 <= M * z) by (apply Rmult_le_pos; lra); lra].
  Qed.
  Lemma w64_ok : fin_nn w64 /\ Rabs (B2R w64 - W) <= (5.3 * (ka * ka) + 23) * uu * W.
  Proof.
    pose proof uu_pos as U0. pose proof uu_1e15 as U. destruct ka_facts as (K & KM & _). pose proof (sg_size mu sg Kl Kh Ml Mh) as Sz. destruct m_close as [Rm Fnm]. pose proof (rclose_size 5.1 _ _ ltac:(lra) ltac:(lra) Rm) as Sm.
    assert (K2 : 100 <= ka * ka <= 8192 * 8192) by (split; nra).
    assert (KU : ka * ka * uu <= / 10000000) by (apply Rle_trans with (8192 * 8192 * / 1000000000000000); [apply Rmult_le_compat; lra|lra]).
    destruct (int_r 4 ltac:(lia)) as [F4 R4]. destruct (int_r 3 ltac:(lia)) as [F3 R3].
    destruct (fdiv_r _ _ _ _ _ _ F4 F3 R4 R3 ltac:(lra) ltac:(lra) ltac:(lra) ltac:(lra)) as [F43 R43].
    destruct (square_ok spow m mu 5.1 Sp Fm ltac:(lra) Rm ltac:(lra)) as [F2 R2].
    { assert (bp (-100) <= bp (-20)) by (apply bpow_le; lia). assert (bp 20 <= bp 100) by (apply bpow_le; lia). change (bp (-20)) with (/ 1048576) in *. change (bp 20) with 1048576 in *. lra. }
    assert (M2 : 1000000 <= mu * mu <= 300000000) by (split; nra).
    destruct (fmul_r _ _ _ _ _ _ F43 F2 R43 R2 ltac:(lra) ltac:(lra) ltac:(lra)) as [FA RA].
    destruct dd_ok as [FD RD]. pose proof W_size as WS. assert (S2 : / 64 <= sg * sg <= 2700000) by (split; nra).
    destruct (fmul_r _ _ (4 / 3 * (mu * mu)) d0 _ _ FA FD RA RD ltac:(lra) ltac:(lra)) as [FW RW]; [fold W; lra|]. fold W w64 in RW, FW.
    assert (KU0 : 0 <= ka * ka * uu) by (apply Rmult_le_pos; lra). split; [exact FW|]. eapply Rle_trans; [eapply rclose_abs; [| |exact RW]; lra|]. apply Rmult_le_compat_r; [lra|]. lra.
  Qed.
  Let eb : R := mu * sq.
  Let e_bar : f64 := fmul m sf.
  Lemma e_bar_ok : near mu 8 e_bar eb.
  Proof.
    destruct y_size as (_ & _ & S & _). pose proof (near_mul mu 1 5 1.92 1 1 m sf mu sq ltac:(rewrite Rmult_1_r; apply (mu_scale mu Ml Mh)) ltac:(lra) ltac:(lra) ltac:(lra) ltac:(lra) ltac:(lra) ltac:(lra) (conj Fm Em) sf_ok ltac:(rewrite Rabs_pos_eq; lra) ltac:(rewrite Rabs_pos_eq; lra) ltac:(lra) ltac:(lra) ltac:(lra)) as N.
    rewrite Rmult_1_r in N. eapply near_weak; [lra|exact N|lra].
  Qed.
  Lemma eb_size : 0.99 * mu <= eb < mu /\ mu - eb <= 0.09 * sg.
  Proof.
    destruct y_size as (Y & A & S & Q). destruct ka_facts as (K & KM & I1 & I0). pose proof (sg_size mu sg Kl Kh Ml Mh) as Sz. unfold eb. split; [split; nra|].
    assert (E : (1 - sq) * (1 + sq) = 3 / 2 * (/ ka * / ka)) by (replace ((1 - sq) * (1 + sq)) with (1 - sq * sq) by ring; rewrite <- Q; unfold a; ring).
    assert (H : 1 - sq <= 0.76 * (/ ka * / ka)) by nra. replace (mu - mu * sq) with (mu * (1 - sq)) by ring. apply Rle_trans with (mu * (0.76 * (/ ka * / ka))); [apply Rmult_le_compat_l; lra|].
    replace (mu * (0.76 * (/ ka * / ka))) with (0.76 * sg * / ka) by (rewrite KM; field; lra). apply Rle_trans with (0.76 * sg * 0.1); [apply Rmult_le_compat_l; lra|lra].
  Qed.
  Let rt : R := sqrt mu.
  Let D (i : nat) : R := sqrt (EE i) - sqrt eb.
  Let h : R := sg / rt.
  Lemma rt_facts : 30 <= rt <= 130 /\ rt * rt = mu /\ 0 < h /\ h * rt = sg /\ rt = ka * h.
  Proof.
    pose proof (sg_size mu sg Kl Kh Ml Mh) as Sz. destruct ka_facts as (K & KM & _). assert (R2 : rt * rt = mu) by (apply sqrt_sqrt; lra). assert (R0 : 0 <= rt) by apply sqrt_pos. assert (R : 30 <= rt <= 130) by (split; nra). split; [exact R|]. split; [exact R2|].
    assert (E : h * rt = sg) by (unfold h; field; lra). split; [unfold h; apply Rdiv_lt_0_compat; lra|]. split; [exact E|]. apply (Rmult_eq_reg_r rt); [|lra]. rewrite R2, Rmult_assoc, E. exact KM.
  Qed.
  Lemma D_size i : (i < 1000)%nat -> Rabs (D i) <= 3.8 * h.
  Proof.
    intro Hi. destruct (grid_range mu sg Kl Kh Ml Mh i ltac:(lia)) as [_ R]. destruct eb_size as [B1 B2]. pose proof (sg_size mu sg Kl Kh Ml Mh) as Sz. destruct rt_facts as (R0 & RR & H0 & HR & _).
    assert (S1 : 0.63 * rt <= sqrt (EE i)) by (apply sqrt_ge; lra). assert (S2 : 0.98 * rt <= sqrt eb) by (apply sqrt_ge; lra).
    pose proof (sqrt_diff (EE i) eb (1.61 * rt) ltac:(lra) ltac:(lra) ltac:(lra) ltac:(lra)) as DD. eapply Rle_trans; [exact DD|]. assert (A : Rabs (EE i - eb) <= 6.1 * sg) by (apply Rabs_le; lra).
    apply (Rmult_le_reg_r (1.61 * rt)); [lra|]. unfold Rdiv. rewrite Rmult_assoc, Rinv_l, Rmult_1_r by lra. replace (3.8 * h * (1.61 * rt)) with (3.8 * 1.61 * (h * rt)) by ring. rewrite HR. lra.
  Qed.
  Let d64 (i : nat) : f64 := fsub (fsqrt (ee i)) (fsqrt e_bar).
  Lemma d64_ok i : (i < 1000)%nat -> near rt 51 (d64 i) (D i).
  Proof.
    intro Hi. destruct (grid_range mu sg Kl Kh Ml Mh i ltac:(lia)) as [_ R]. destruct eb_size as [B1 B2]. pose proof (sg_size mu sg Kl Kh Ml Mh) as Sz. destruct rt_facts as (R0 & RR & H0 & HR & KH). pose proof uu_pos. pose proof uu_1e15.
    pose proof (fsqrt_near mu 53 (ee i) (EE i) 0.63 ltac:(lra) ltac:(lra) (e64_near m s mu sg Fm Fs Em Es Kl Kh Ml Mh i ltac:(lia)) ltac:(lra) ltac:(lra)) as N1. fold rt in N1.
    pose proof (fsqrt_near mu 8 e_bar eb 0.98 ltac:(lra) ltac:(lra) e_bar_ok ltac:(lra) ltac:(lra)) as N2. fold rt in N2.
    apply (near_weak _ _ 44) in N1; [|lra|]. 2:{ apply Rle_trans with (42.5 + 1.3); [|lra]. apply Rplus_le_compat_r. apply (Rmult_le_reg_r (1.99 * 0.63)); [lra|]. unfold Rdiv. rewrite Rmult_assoc, Rinv_l by lra. lra. }
    apply (near_weak _ _ 5.6) in N2; [|lra|]. 2:{ apply Rle_trans with (4.3 + 1.3); [|lra]. apply Rplus_le_compat_r. apply (Rmult_le_reg_r (1.99 * 0.98)); [lra|]. unfold Rdiv. rewrite Rmult_assoc, Rinv_l by lra. lra. }
    pose proof (D_size i Hi) as DS. destruct ka_facts as (K & _).
    eapply near_weak; [lra|apply (near_sub rt 44 5.6 1); [apply scale_of; lra|lra|exact N1|exact N2| |lra|lra]|lra]. fold (D i). eapply Rle_trans; [exact DS|]. rewrite KH. assert (10 * h <= ka * h) by (apply Rmult_le_compat_r; lra). lra.
  Qed.
  Let x64 (i : nat) : f64 := fdiv (fmul (fmul (f64_of_Z (-2)) e_bar) (fmul (d64 i) (d64 i))) w64.
  Lemma x64_ok i : (i < 1000)%nat -> let X := 2 * eb * (D i * D i) / W in is_finite (x64 i) = true /\ Rabs (B2R (x64 i) - - X) <= (160 * (ka * ka) + 800 * ka + 1040) * uu /\ 0 <= X <= 30.
  Proof.
    intros Hi X. destruct (d64_ok i Hi) as [Fd Ed]. pose proof (D_size i Hi) as DS. destruct rt_facts as (R0 & RR & H0 & HR & KH). destruct ka_facts as (K & KM & _). pose proof (sg_size mu sg Kl Kh Ml Mh) as Sz. pose proof uu_pos as U0. pose proof uu_1e15 as U.
    assert (KU : 0 <= ka * uu <= / 100000000000) by (split; [apply Rmult_le_pos; lra|apply Rle_trans with (8192 * / 1000000000000000); [apply Rmult_le_compat; lra|lra]]).
    assert (K2 : 100 <= ka * ka <= 8192 * 8192) by (split; nra). assert (KU2 : 0 <= ka * ka * uu <= / 10000000) by (split; [apply Rmult_le_pos; lra|apply Rle_trans with (8192 * 8192 * / 1000000000000000); [apply Rmult_le_compat; lra|lra]]).
    set (de := 51 * (ka * uu)). assert (De : 0 <= de <= / 100000000) by (unfold de; lra).
    assert (D1 : Rabs (B2R (d64 i) - D i) <= de * h) by (eapply Rle_trans; [exact Ed|]; right; unfold de; rewrite KH; ring).
    assert (D2 : Rabs (B2R (d64 i)) <= (3.8 + de) * h). { replace (B2R (d64 i)) with ((B2R (d64 i) - D i) + D i) by ring. eapply Rle_trans; [apply Rabs_triang|]. lra. }
    set (v := h * h). assert (V : v * mu = sg * sg) by (unfold v; rewrite <- RR, <- HR; ring). assert (S2 : / 64 <= sg * sg <= 2700000) by (split; nra). assert (Vp : 0 < v) by (unfold v; now apply Rmult_lt_0_compat). assert (VS : / 10000000 <= v <= 2700) by (split; nra).
    assert (D3 : Rabs (B2R (d64 i) * B2R (d64 i) - D i * D i) <= 388 * (ka * uu) * v).
    { replace (B2R (d64 i) * B2R (d64 i) - D i * D i) with ((B2R (d64 i) - D i) * (B2R (d64 i) + D i)) by ring. rewrite Rabs_mult. apply Rle_trans with (de * h * (7.6001 * h)).
      - apply Rmult_le_compat; try apply Rabs_pos; [exact D1|]. eapply Rle_trans; [apply Rabs_triang|]. assert (de * h <= 0.0001 * h) by (apply Rmult_le_compat_r; lra). lra.
      - replace (de * h * (7.6001 * h)) with (de * 7.6001 * v) by (unfold v; ring). apply Rmult_le_compat_r; [lra|]. unfold de. lra. }
    assert (DQ : 0 <= D i * D i <= 14.45 * v).
    { split; [apply Rle_0_sqr|]. rewrite <- (Rabs_pos_eq (D i * D i)) by apply Rle_0_sqr. rewrite Rabs_mult. apply Rle_trans with (3.8 * h * (3.8 * h)); [apply Rmult_le_compat; try apply Rabs_pos; exact DS|]. unfold v. replace (3.8 * h * (3.8 * h)) with (3.8 * 3.8 * (h * h)) by ring. apply Rmult_le_compat_r; [unfold v in Vp; lra|lra]. }
    assert (D4 : Rabs (B2R (d64 i) * B2R (d64 i)) <= 15 * v).
    { replace (B2R (d64 i) * B2R (d64 i)) with ((B2R (d64 i) * B2R (d64 i) - D i * D i) + D i * D i) by ring. eapply Rle_trans; [apply Rabs_triang|]. rewrite (Rabs_pos_eq (D i * D i)) by lra. assert (388 * (ka * uu) * v <= 0.1 * v) by (apply Rmult_le_compat_r; lra). lra. }
    destruct (fmul_about v 15 (d64 i) (d64 i) (scale_small v ltac:(lra)) (K30 15 ltac:(lra)) Fd Fd D4) as [FQ EQ]. set (q := fmul (d64 i) (d64 i)) in *.
    assert (Q : Rabs (B2R q - D i * D i) <= (388 * ka + 15) * uu * v).
    { replace (B2R q - D i * D i) with ((B2R q - B2R (d64 i) * B2R (d64 i)) + (B2R (d64 i) * B2R (d64 i) - D i * D i)) by ring. eapply Rle_trans; [apply Rabs_triang|]. lra. }
    (* - 2 e_bar *)
    destruct eb_size as [EB1 EB2]. destruct (f64_of_Z_exact (-2) ltac:(lia)) as [Fn Vn].
    assert (Nn : near 1 0 (f64_of_Z (-2)) (-2)) by (split; [exact Fn|]; rewrite Vn, Rminus_diag_eq, Rabs_R0 by reflexivity; lra).
    pose proof (near_mul 1 mu 0 8 2 1 _ e_bar _ eb ltac:(rewrite Rmult_1_l; apply (mu_scale mu Ml Mh)) ltac:(lra) ltac:(lra) ltac:(lra) ltac:(lra) ltac:(lra) ltac:(lra) Nn e_bar_ok ltac:(rewrite Rabs_left; lra) ltac:(rewrite Rabs_pos_eq; lra) ltac:(lra) ltac:(lra) ltac:(lra)) as N2.
    rewrite Rmult_1_l in N2. apply (near_weak _ _ 18.1) in N2; [|lra|lra]. destruct N2 as [F2 E2]. set (e2 := fmul (f64_of_Z (-2)) e_bar) in *.
    assert (UM : uu * mu <= / 10000 * mu) by (apply Rmult_le_compat_r; lra).
    assert (B2 : Rabs (B2R e2) <= 2.002 * mu) by (assert (E2' := E2); apply Rabs_le_inv in E2'; apply Rabs_le; lra).
    set (N := 2 * eb * (D i * D i)) in *. assert (Np : 0 <= N <= 28.9 * (sg * sg)).
    { unfold N. split; [apply Rmult_le_pos; lra|]. apply Rle_trans with (2 * mu * (14.45 * v)); [apply Rmult_le_compat; lra|]. replace (2 * mu * (14.45 * v)) with (28.9 * (v * mu)) by lra. rewrite V. lra. }
    assert (P1 : Rabs (B2R e2 * B2R q - - N) <= (778 * ka + 292) * uu * (sg * sg)).
    { replace (B2R e2 * B2R q - - N) with (B2R e2 * (B2R q - D i * D i) + (B2R e2 - -2 * eb) * (D i * D i)) by (unfold N; ring). eapply Rle_trans; [apply Rabs_triang|]. rewrite !Rabs_mult, (Rabs_pos_eq (D i)), <- (Rabs_mult (D i)) || rewrite !Rabs_mult.
      rewrite <- (Rabs_mult (D i) (D i)), (Rabs_pos_eq (D i * D i)) by lra.
      assert (A1 : Rabs (B2R e2) * Rabs (B2R q - D i * D i) <= 2.002 * mu * ((388 * ka + 15) * uu * v)) by (apply Rmult_le_compat; try apply Rabs_pos; assumption).
      assert (A2 : Rabs (B2R e2 - -2 * eb) * (D i * D i) <= 18.1 * (uu * mu) * (14.45 * v)) by (apply Rmult_le_compat; try apply Rabs_pos; lra).
      replace (2.002 * mu * ((388 * ka + 15) * uu * v)) with (2.002 * (388 * ka + 15) * uu * (v * mu)) in A1 by ring. replace (18.1 * (uu * mu) * (14.45 * v)) with (18.1 * 14.45 * uu * (v * mu)) in A2 by ring. rewrite V in A1, A2.
      eapply Rle_trans; [apply Rplus_le_compat; [exact A1|exact A2]|]. rewrite <- Rmult_plus_distr_r. apply Rmult_le_compat_r; [lra|]. lra. }
    assert (KUb : (778 * ka + 292) * uu <= / 100) by lra.
    assert (P2 : Rabs (B2R e2 * B2R q) <= 30 * (sg * sg)).
    { replace (B2R e2 * B2R q) with ((B2R e2 * B2R q - - N) + - N) by ring. eapply Rle_trans; [apply Rabs_triang|]. rewrite Rabs_Ropp, (Rabs_pos_eq N) by lra. assert ((778 * ka + 292) * uu * (sg * sg) <= / 100 * (sg * sg)) by (apply Rmult_le_compat_r; lra). lra. }
    destruct (fmul_about (sg * sg) 30 e2 q (scale_of (sg * sg) ltac:(lra)) (K30 30 ltac:(lra)) F2 FQ P2) as [FN EN]. set (num := fmul e2 q) in *.
    assert (PN : Rabs (B2R num - - N) <= (778 * ka + 322) * uu * (sg * sg)).
    { replace (B2R num - - N) with ((B2R num - B2R e2 * B2R q) + (B2R e2 * B2R q - - N)) by ring. eapply Rle_trans; [apply Rabs_triang|]. lra. }
    (* quotient *)
    destruct w64_ok as [Fw Ew]. pose proof W_size as WS. set (w := B2R w64) in *. assert (WU : (5.3 * (ka * ka) + 23) * uu <= / 10000) by lra.
    assert (Ww : Rabs (w - W) <= / 10000 * W) by (eapply Rle_trans; [exact Ew|]; apply Rmult_le_compat_r; lra). apply Rabs_le_inv in Ww.
    assert (XE : X * W = N) by (unfold X, N; field; lra).
    assert (XB : 0 <= X <= 29.5). { split; [unfold X; apply Rmult_le_pos; [exact (proj1 Np)|left; apply Rinv_0_lt_compat; lra]|]. apply (Rmult_le_reg_r W); [lra|]. rewrite XE. lra. }
    assert (QX : Rabs (B2R num / w - - X) <= (159.5 * (ka * ka) + 800 * ka + 1009) * uu).
    { replace (B2R num / w - - X) with ((B2R num - - N) * / w + X * (w - W) * / w). 2:{ rewrite <- XE. field. lra. }
      assert (Iw : 0 < / w <= 1.021 / (sg * sg)). { split; [apply Rinv_0_lt_compat; lra|]. apply (Rmult_le_reg_r w); [lra|]. rewrite Rinv_l by lra. apply Rle_trans with (1.021 / (sg * sg) * (0.9799 * (sg * sg))); [unfold Rdiv; rewrite Rmult_assoc, (Rmult_comm (/ (sg * sg))), Rmult_assoc, Rinv_r by lra; lra|apply Rmult_le_compat_l; [left; apply Rdiv_lt_0_compat; lra|lra]]. }
      eapply Rle_trans; [apply Rabs_triang|]. rewrite !Rabs_mult, (Rabs_pos_eq (/ w)), (Rabs_pos_eq X) by lra.
      assert (A1 : Rabs (B2R num - - N) * / w <= (778 * ka + 322) * uu * (sg * sg) * (1.021 / (sg * sg))) by (apply Rmult_le_compat; try lra; apply Rabs_pos).
      replace ((778 * ka + 322) * uu * (sg * sg) * (1.021 / (sg * sg))) with ((778 * ka + 322) * 1.021 * uu) in A1 by (field; lra).
      assert (A2 : X * Rabs (w - W) * / w <= 29.5 * ((5.3 * (ka * ka) + 23) * uu) * 1.0002).
      { rewrite Rmult_assoc, (Rmult_assoc 29.5). apply Rmult_le_compat; try lra; [apply Rmult_le_pos; [apply Rabs_pos|lra]|]. apply (Rmult_le_reg_r w); [lra|]. rewrite Rmult_assoc, Rinv_l, Rmult_1_r by lra. eapply Rle_trans; [exact Ew|]. replace ((5.3 * (ka * ka) + 23) * uu * 1.0002 * w) with ((5.3 * (ka * ka) + 23) * uu * (1.0002 * w)) by ring. apply Rmult_le_compat_l; [apply Rmult_le_pos; lra|lra]. }
      eapply Rle_trans; [apply Rplus_le_compat; [exact A1|exact A2]|]. replace ((778 * ka + 322) * 1.021 * uu + 29.5 * ((5.3 * (ka * ka) + 23) * uu) * 1.0002) with (((778 * ka + 322) * 1.021 + 29.5 * (5.3 * (ka * ka) + 23) * 1.0002) * uu) by ring. apply Rmult_le_compat_r; lra. }
    assert (KU3 : (159.5 * (ka * ka) + 800 * ka + 1009) * uu <= / 100) by lra.
    assert (BX : Rabs (B2R num / B2R w64) <= 31 * 1). { fold w. replace (B2R num / w) with ((B2R num / w - - X) + - X) by ring. eapply Rle_trans; [apply Rabs_triang|]. rewrite Rabs_Ropp, (Rabs_pos_eq X) by lra. lra. }
    destruct (fdiv_about 1 31 num w64 (scale_of 1 ltac:(lra)) (K30 31 ltac:(lra)) FN (proj1 Fw) ltac:(fold w; lra) BX) as [FX EX]. fold w in EX.
    split; [exact FX|]. split; [|lra]. unfold x64. fold q e2 num. set (z := fdiv num w64) in *. replace (B2R z - - X) with ((B2R z - B2R num / w) + (B2R num / w - - X)) by ring. eapply Rle_trans; [apply Rabs_triang|]. lra.
  Qed.
  Lemma mg_shape i : m_gaussian mu sg (EE i) = exp (- (2 * eb * (D i * D i) / W)).
  Proof.
    pose proof (sg_size mu sg Kl Kh Ml Mh) as Sz. assert (A : m_gaussian_alpha mu sg = a). { unfold m_gaussian_alpha, a, ka. field. lra. }
    unfold m_gaussian, m_gaussian_peak, m_gaussian_width2. rewrite A. fold sq. fold eb. f_equal. unfold D, W, d0. f_equal. f_equal; [ring|]. rewrite <- (Rmult_1_r mu) at 1. ring.
  Qed.
  Let qm (i : nat) : f64 := vexp i (x64 i).
  Lemma qm_ok i : (i < 1000)%nat -> dens_ok (qm i) /\ 0 < B2R (qm i) /\ 0 < m_gaussian mu sg (EE i) /\ rclose (160 * (ka * ka) + 800 * ka + 1050) (B2R (qm i)) (1 * m_gaussian mu sg (EE i)).
  Proof.
    intro Hi. destruct (x64_ok i Hi) as (F & E & X). rewrite mg_shape. set (x := 2 * eb * (D i * D i) / W) in *. clearbody x. destruct ka_facts as (K & _). pose proof uu_pos. pose proof uu_1e15.
    assert (KU : 0 <= ka * uu <= / 100000000000) by (split; [apply Rmult_le_pos; lra|apply Rle_trans with (8192 * / 1000000000000000); [apply Rmult_le_compat; lra|lra]]).
    assert (K2 : 100 <= ka * ka <= 8192 * 8192) by (split; nra). assert (KU2 : 0 <= ka * ka * uu <= / 10000000) by (split; [apply Rmult_le_pos; lra|apply Rle_trans with (8192 * 8192 * / 1000000000000000); [apply Rmult_le_compat; lra|lra]]).
    destruct (exp_ok (vexp i) (x64 i) (- x) (160 * (ka * ka) + 800 * ka + 1040) (Ve i) F ltac:(lra) ltac:(lra) ltac:(lra) E) as (A & R & B). fold (qm i) in A, R, B.
    pose proof (bp_pos (-81)). split; [split; [apply A|right]|].
    { split; [apply Rle_trans with (bp (-81)); [apply bpow_le; lia|apply B]|apply Rle_trans with (bp 3); [apply B|apply bpow_le; lia]]. }
    split; [lra|]. split; [apply exp_pos|]. rewrite Rmult_1_l. eapply rclose_weaken; [|exact R]. lra.
  Qed.
  Lemma mgauss_ok : let G := m_gaussian mu sg in
    exists p, modified_gaussian_energy_spectrum64 spow vexp np_sum m s = Ok (map ee (seq 0 1000), map p (seq 0 1000)) /\ 0 < integral (map (fun i => (EE i, G (EE i))) (seq 0 1000)) /\
      (forall i, (i < 1000)%nat -> is_finite (p i) = true /\ 0 < B2R (p i) /\ rclose (330 * (ka * ka) + 11000 * ka) (B2R (p i)) (grid_density G mu sg i)) /\
      rclose 1006 (integral (combine (map B2R (map ee (seq 0 1000))) (map B2R (map p (seq 0 1000))))) 1.
  Proof.
    intro G. destruct ka_facts as (K0 & _). assert (K2 : 100 <= ka * ka) by nra.
    destruct (assembled np_sum ee qm EE (fun i => G (EE i)) 1 (9002 * ka) (160 * (ka * ka) + 800 * ka + 1050) Hsum (row m s mu sg Fm Fs Em Es Kl Kh Ml Mh) (gap_rclose m s mu sg Fm Fs Em Es Kl Kh Ml Mh) qm_ok ltac:(lra) ltac:(lra)) as (p & P & I0 & Q & J).
    exists p. split.
    { unfold modified_gaussian_energy_spectrum64. rewrite (energies_map m s), map_length, seq_length. rewrite map2_map. exact P. }
    split; [exact I0|]. split; [|exact J]. intros i Hi. destruct (Q i Hi) as (A & B & C). split; [exact A|]. split; [exact B|]. unfold grid_density. eapply rclose_weaken; [|exact C]. lra.
  Qed.
End MGauss.
