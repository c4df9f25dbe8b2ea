(** C93: the tabulated D-T and D-D neutron spectra have the published mean energy and the published width. *)
From Coq Require Import Reals List Lra Lia Psatz.
From Verif Require Import Base Reactions Profile SpectraData Energy SpecEnergy SpecMoments EnergyProofs MomentProofs P_Energy.
Import ListNotations.
Open Scope R_scope.

Lemma integral_scale {A} (f g : A -> R) mu sigma c l : integral (map (fun k => (mu + sigma * f k, c * g k)) l) = sigma * c * integral (map (fun k => (f k, g k)) l).
Proof.
  induction l as [|x l IH]; [cbn; ring|]. destruct l as [|y l]; [cbn; ring|]. cbn [map] in *.
  assert (E : forall a b : A -> R, integral ((a x, b x) :: (a y, b y) :: map (fun k => (a k, b k)) l) = (a y - a x) * (b x + b y) / 2 + integral ((a y, b y) :: map (fun k => (a k, b k)) l)) by reflexivity.
  rewrite (E (fun k => mu + sigma * f k) (fun k => c * g k)), (E f g), IH. field.
Qed.
Lemma points_lin f g h a b : (forall x, h x = a * f x + b * g x) -> integral (points h 0 1000) = a * integral (points f 0 1000) + b * integral (points g 0 1000).
Proof.
  intro H. unfold points.
  pose proof (integral_lin (fun p => f (fst p)) (fun p => g (fst p)) (fun p => h (fst p)) a b (map (fun k => (node k, 0)) (seq 0 1000)) (fun p _ => H (fst p))) as L.
  rewrite !map_map in L. exact L.
Qed.
Lemma energies_nodes mu sigma : energies mu sigma = map (fun k => mu + sigma * node k) (seq 0 1000).
Proof.
  unfold energies. rewrite linspace_map by lia. apply map_ext. intro k. unfold node. replace (INR (1000 - 1)) with 999; [field|].
  change (1000 - 1)%nat with (Z.to_nat 999). rewrite INR_IZR_INZ, Z2Nat.id by lia. reflexivity.
Qed.
Lemma combine_maps {A B C} (f : A -> B) (g : A -> C) l : combine (map f l) (map g l) = map (fun x => (f x, g x)) l.
Proof. induction l as [|x l IH]; [reflexivity|]. cbn. now rewrite IH. Qed.

Lemma alg_mean sigma c N M1 mu : 0 < N -> sigma * c * N = 1 -> sigma * c * (mu * N + sigma * M1) = mu + sigma * (M1 / N).
Proof.
  intros HN C. replace M1 with (N * (M1 / N)) at 1 by (field; lra). transitivity (sigma * c * N * (mu + sigma * (M1 / N))); [ring|]. rewrite C. ring.
Qed.
Lemma alg_deviation sigma c N M1 M2 : 0 < N -> sigma * c * N = 1 -> let m := M1 / N in
  sigma * c * (sigma ^ 2 * M2 + sigma ^ 2 * ((1 + m ^ 2) * N + -2 * m * M1)) = sigma ^ 2 * (1 + M2 / N - m ^ 2).
Proof.
  intros HN C m. replace M1 with (N * m) by (unfold m; field; lra). replace M2 with (N * (M2 / N)) at 1 by (field; lra).
  transitivity (sigma * c * N * (sigma ^ 2 * (1 + M2 / N - m ^ 2))); [ring|]. rewrite C. ring.
Qed.
Section Shape.
Variables (mu sigma c : R) (G g : R -> R).
Hypothesis Hs : 0 < sigma.
Hypothesis HG : forall x, -6 <= x <= 6 -> G (mu + sigma * x) = g x.
Let e := energies mu sigma.
Let p := map (fun E => c * G E) e.
Lemma average_points h : average h e p = sigma * c * integral (points (fun x => h (mu + sigma * x) * g x) 0 1000).
Proof.
  unfold average, points, p, e. rewrite energies_nodes, map_map, combine_maps, map_map, combine_maps. cbn [fst snd].
  rewrite <- (integral_scale node (fun k => h (mu + sigma * node k) * g (node k)) mu). f_equal.
  apply map_ext_in. intros k Hk. apply in_seq in Hk. rewrite HG by (apply node_range; lia). f_equal. ring.
Qed.
Hypothesis Hn : integral (combine e p) = 1.
Let N := integral (points g 0 1000).
Let M1 := integral (points (fun x => x * g x) 0 1000).
Let M2 := integral (points (fun x => (x ^ 2 - 1) * g x) 0 1000).
Lemma norm_points : sigma * c * N = 1.
Proof.
  rewrite <- Hn. unfold p, e, N, points. rewrite energies_nodes, map_map, combine_maps.
  rewrite <- (integral_scale node (fun k => g (node k)) mu). f_equal.
  apply map_ext_in. intros k Hk. apply in_seq in Hk. now rewrite HG by (apply node_range; lia).
Qed.
Lemma mean_points : 0 < N -> spectrum_mean e p = mu + sigma * (M1 / N).
Proof.
  intro HN. pose proof norm_points as C. unfold spectrum_mean. rewrite average_points.
  rewrite (points_lin g (fun x => x * g x) _ mu sigma) by (intros; ring). fold N M1. apply (alg_mean sigma c N M1 mu); [exact HN|exact C].
Qed.
Lemma deviation_points : 0 < N -> spectrum_deviation e p = sigma * sqrt (1 + M2 / N - (M1 / N) ^ 2).
Proof.
  intro HN. pose proof norm_points as C. unfold spectrum_deviation. rewrite mean_points by exact HN. set (m := M1 / N).
  assert (E : average (fun E => (E - (mu + sigma * m)) ^ 2) e p = sigma ^ 2 * (1 + M2 / N - m ^ 2)).
  { rewrite average_points. rewrite (points_lin (fun x => (x ^ 2 - 1) * g x) (fun x => (1 + m ^ 2) * g x + (-2 * m) * (x * g x)) _ (sigma ^ 2) (sigma ^ 2)) by (intros; ring).
    rewrite (points_lin g (fun x => x * g x) (fun x => (1 + m ^ 2) * g x + -2 * m * (x * g x)) (1 + m ^ 2) (-2 * m)) by (intros; ring). fold N M1 M2.
    apply (alg_deviation sigma c N M1 M2); [exact HN|exact C]. }
  rewrite E, sqrt_mult_alt by (apply pow2_ge_0). f_equal. rewrite <- Rsqr_pow2. apply sqrt_Rsqr. lra.
Qed.
Lemma close n b1 b2 tol : 0 < n -> n <= N -> Rabs M1 <= b1 -> Rabs M2 <= b2 -> b1 <= tol * n -> b2 + b1 ^ 2 / n <= tol * (2 - tol) * n -> 0 <= tol <= 1 ->
  Rabs (spectrum_mean e p - mu) <= tol * sigma /\ Rabs (spectrum_deviation e p - sigma) <= tol * sigma.
Proof.
  intros Hn0 HN H1 H2 T1 T2 Ht. assert (N0 : 0 < N) by lra. rewrite mean_points, deviation_points by exact N0. set (m := M1 / N).
  assert (P1 : 0 <= b1) by (pose proof (Rabs_pos M1); lra). assert (P2 : 0 <= b2) by (pose proof (Rabs_pos M2); lra).
  assert (Dv : forall X b, Rabs X <= b -> Rabs (X / N) <= b / n).
  { intros X b HX. unfold Rdiv. rewrite Rabs_mult, (Rabs_pos_eq (/ N)) by (apply Rlt_le, Rinv_0_lt_compat; lra).
    apply Rmult_le_compat; [apply Rabs_pos|apply Rlt_le, Rinv_0_lt_compat; lra|exact HX|apply Rinv_le_contravar; lra]. }
  pose proof (Dv M1 b1 H1) as D1. pose proof (Dv M2 b2 H2) as D2. fold m in D1.
  assert (Q1 : b1 / n <= tol). { apply (Rmult_le_reg_r n); [lra|]. unfold Rdiv. rewrite Rmult_assoc, Rinv_l by lra. lra. }
  split.
  - replace (mu + sigma * m - mu) with (sigma * m) by ring. rewrite Rabs_mult, (Rabs_pos_eq sigma) by lra. nra.
  - replace (sigma * sqrt (1 + M2 / N - m ^ 2) - sigma) with (sigma * (sqrt (1 + M2 / N - m ^ 2) - 1)) by ring.
    rewrite Rabs_mult, (Rabs_pos_eq sigma) by lra. rewrite (Rmult_comm tol). apply Rmult_le_compat_l; [lra|].
    assert (Mm : 0 <= m ^ 2 <= (b1 / n) ^ 2). { split; [apply pow2_ge_0|]. rewrite <- (pow2_abs m). apply pow_incr. split; [apply Rabs_pos|exact D1]. }
    assert (S : b2 / n + (b1 / n) ^ 2 <= tol * (2 - tol)).
    { apply (Rmult_le_reg_r n); [lra|]. replace ((b2 / n + (b1 / n) ^ 2) * n) with (b2 + b1 ^ 2 / n) by (field; lra). lra. }
    pose proof (Rle_abs (M2 / N)) as A1. pose proof (Rle_abs (- (M2 / N))) as A2. rewrite Rabs_Ropp in A2.
    set (y := 1 + M2 / N - m ^ 2) in *. assert (Y : (1 - tol) ^ 2 <= y <= (1 + tol) ^ 2) by (unfold y; nra).
    assert (Sy : sqrt y * sqrt y = y) by (apply sqrt_sqrt; nra). pose proof (sqrt_pos y) as Sp. apply Rabs_le. nra.
Qed.
End Shape.

(** Nine standard deviations below the mean energy are still positive. *)
Lemma narrow r T : (r = DT \/ r = DDn) -> 0 < T <= 40 -> 9 * published_sigma r T < nominal r.
Proof.
  intros Hr HT. pose proof (Rpower_gt0 T (2 / 3)) as P23. pose proof (Rpower_le_id T (2 / 3) ltac:(lra) ltac:(lra)) as P23'.
  assert (Sq : 0 < sqrt T <= 6.4). { split; [apply sqrt_lt_R0; lra|]. apply Rsqr_incr_0_var; [|lra]. rewrite Rsqr_sqrt by lra. unfold Rsqr. lra. }
  assert (K : forall om w s c m, 0 < om -> 0 <= w <= c -> 0 < s <= 6.4 -> 9 * (om * (1 + c) * 6.4 / 2.3548200450309493) < m -> 9 * (om * (1 + w) * s / 2.3548200450309493) < m).
  { intros om w s c m H1 H2 H3 H4. assert ((1 + w) * s <= (1 + c) * 6.4) by (apply Rmult_le_compat; lra).
    assert (om * ((1 + w) * s) <= om * ((1 + c) * 6.4)) by (apply Rmult_le_compat_l; lra). lra. }
  assert (F : forall a d b, 0 <= a -> 1 <= d -> 0 <= b -> 0 <= a / d * Rpower T (2 / 3) + b * T <= a * 41 + b * 40).
  { intros a d b Ha Hd Hb. destruct (div_le_num a d Ha Hd) as [D1 D2].
    assert (0 <= a / d * Rpower T (2 / 3)) by (apply Rmult_le_pos; lra). assert (a / d * Rpower T (2 / 3) <= a * 41) by (apply Rmult_le_compat; lra).
    assert (0 <= b * T) by (apply Rmult_le_pos; lra). assert (b * T <= b * 40) by (apply Rmult_le_compat_l; lra). lra. }
  destruct Hr as [-> | ->]; cbn [published_sigma nominal].
  - pose proof (Rpower_gt0 T 1.78). apply (K _ _ _ (5.1068e-4 * 41 + 8.7691e-5 * 40)); [lra| |lra|lra]. apply F; lra.
  - pose proof (Rpower_gt0 T 0.49). apply (K _ _ _ (1.7013e-3 * 41 + 7.9460e-4 * 40)); [lra| |lra|lra]. apply F; lra.
Qed.
Lemma gaussian_shape mu sigma x : 0 < sigma -> gaussian mu sigma (mu + sigma * x) = bell x.
Proof. intro H. unfold gaussian, bell. f_equal. f_equal. field. lra. Qed.
Lemma m_gaussian_shape mu sigma x : 0 < sigma -> 9 * sigma < mu -> -6 <= x <= 6 ->
  let q := sigma / mu in let s := sqrt (m_gaussian_alpha mu sigma) in m_gaussian mu sigma (mu + sigma * x) = modg q s (sqrt s) x.
Proof.
  intros H1 H2 Hx q s. pose proof (alpha_range mu sigma H1 ltac:(lra)) as A. pose proof (sqrt_above _ A) as SA. fold s in SA.
  assert (S2 : s * s = m_gaussian_alpha mu sigma) by (apply sqrt_sqrt; lra).
  unfold m_gaussian, modg. f_equal. f_equal. unfold m_gaussian_peak. fold s.
  assert (E1 : sqrt (mu + sigma * x) = sqrt mu * vv q x). { unfold vv. rewrite <- sqrt_mult_alt by lra. f_equal. unfold q. field. lra. }
  rewrite E1, (sqrt_mult_alt mu s) by lra. replace (sqrt mu * vv q x - sqrt mu * sqrt s) with (sqrt mu * (vv q x - sqrt s)) by ring.
  rewrite Rpow_mult_distr. replace (sqrt mu ^ 2) with mu by (cbn [pow]; rewrite Rmult_1_r, sqrt_sqrt by lra; reflexivity).
  assert (W : m_gaussian_width2 mu sigma = 4 / 3 * mu ^ 2 * (s * (1 - s))) by (unfold m_gaussian_width2; fold s; rewrite <- S2; ring).
  assert (Q : q ^ 2 = 2 / 3 * ((1 - s) * (1 + s))) by (unfold m_gaussian_alpha in S2; fold q in S2; lra).
  rewrite W, Q. field. lra.
Qed.
Lemma m_gaussian_facts mu sigma : 0 < sigma -> 9 * sigma < mu -> let q := sigma / mu in let s := sqrt (m_gaussian_alpha mu sigma) in
  0 < q <= 1 / 9 /\ 0 < s < 1 /\ s ^ 2 = 1 - 3 / 2 * q ^ 2 /\ 0 < sqrt s /\ sqrt s ^ 2 = s.
Proof.
  intros H1 H2 q s. pose proof (alpha_range mu sigma H1 ltac:(lra)) as A. pose proof (sqrt_above _ A) as SA. fold s in SA.
  split; [split; [apply Rdiv_lt_0_compat; lra|apply (Rmult_le_reg_r mu); [lra|]; unfold q, Rdiv; rewrite Rmult_assoc, Rinv_l by lra; lra]|].
  split; [lra|]. split; [cbn [pow]; rewrite Rmult_1_r; unfold s; rewrite sqrt_sqrt by lra; unfold m_gaussian_alpha; fold q; lra|].
  split; [apply sqrt_lt_R0; lra|]. cbn [pow]. rewrite Rmult_1_r. apply sqrt_sqrt. lra.
Qed.

Lemma same_tables (e e' p p' : list R) (w w' : list swarning) : @Ok (option (list R * list R) * list swarning) (Some (e, p), w) = Ok (Some (e', p'), w') -> e = e' /\ p = p'.
Proof. intro H. injection H as -> -> _. now split. Qed.

(** C93: mean and standard deviation of the spectrum are the published ones up to half a percent of the width. *)
Theorem C93_modified_gaussian : forall d r T meth e p w, (r = DT \/ r = DDn) -> 0 < T <= 40 -> (meth = SMGaussian \/ meth = SAuto) ->
  energy_spectrum d T r meth = Ok (Some (e, p), w) ->
  Rabs (spectrum_mean e p - published_mean r T) <= 0.005 * published_sigma r T /\
  Rabs (spectrum_deviation e p - published_sigma r T) <= 0.005 * published_sigma r T.
Proof.
  intros d r T meth e p w Hr HT Hm E. destruct (mean_ok r T Hr) as (Em & Es & M & S0); [lra|intros; lra|].
  pose proof (narrow r T Hr HT) as G. set (mu := published_mean r T) in *. set (sigma := published_sigma r T) in *.
  destruct (m_gaussian_ok mu sigma S0 ltac:(lra)) as (c & Hc & Eg & I).
  assert (Eb : energy_spectrum d T r meth = Ok (Some (energies mu sigma, map (fun e => c * m_gaussian mu sigma e) (energies mu sigma)), [])).
  { assert (B : ballabio_energy_spectrum (spectrum_of r) T SMGaussian = modified_gaussian_energy_spectrum mu sigma) by (unfold ballabio_energy_spectrum; rewrite Em, Es; reflexivity).
    destruct Hr as [-> | ->], Hm as [-> | ->]; cbn [energy_spectrum energy_spectrum_once ballabio_spectrum]; cbn [spectrum_of] in B; rewrite B, Eg; reflexivity. }
  rewrite E in Eb. destruct (same_tables _ _ _ _ _ _ Eb) as [-> ->]. clear E Eb.
  destruct (m_gaussian_facts mu sigma S0 ltac:(lra)) as (F1 & F2 & F3 & F4 & F5). set (q := sigma / mu) in *. set (s := sqrt (m_gaussian_alpha mu sigma)) in *.
  apply (close mu sigma c (m_gaussian mu sigma) (modg q s (sqrt s)) S0) with (n := 1.009) (b1 := 0.003) (b2 := 0.0096).
  - intros x Hx. apply m_gaussian_shape; [exact S0|lra|exact Hx].
  - exact I.
  - lra.
  - now apply modg_norm.
  - now apply modg_first.
  - now apply modg_second.
  - lra.
  - lra.
  - lra.
Qed.
Print Assumptions C93_modified_gaussian.

(** For the plain Gaussian the mean is exact and the width is right to one part in a thousand. *)
Theorem C93_gaussian : forall d r T e p w, (r = DT \/ r = DDn) -> 0 < T <= 40 -> energy_spectrum d T r SGaussian = Ok (Some (e, p), w) ->
  spectrum_mean e p = published_mean r T /\ Rabs (spectrum_deviation e p - published_sigma r T) <= 0.001 * published_sigma r T.
Proof.
  intros d r T e p w Hr HT E. destruct (mean_ok r T Hr) as (Em & Es & M & S0); [lra|intros; lra|].
  pose proof (narrow r T Hr HT) as G.
  assert (Mean : spectrum_mean e p = published_mean r T).
  { destruct (C47_symmetric d r T e p w Hr HT E) as (_ & _ & Q). rewrite <- Q. unfold spectrum_mean, average. f_equal.
    generalize e p. clear. induction e as [|x e IH]; intros [|y p]; try reflexivity. cbn. now rewrite IH. }
  split; [exact Mean|]. set (mu := published_mean r T) in *. set (sigma := published_sigma r T) in *.
  destruct (gaussian_ok mu sigma S0) as (c & Hc & Eg & I).
  assert (Eb : energy_spectrum d T r SGaussian = Ok (Some (energies mu sigma, map (fun e => c * gaussian mu sigma e) (energies mu sigma)), [])).
  { assert (B : ballabio_energy_spectrum (spectrum_of r) T SGaussian = gaussian_energy_spectrum mu sigma) by (unfold ballabio_energy_spectrum; rewrite Em, Es; reflexivity).
    destruct Hr as [-> | ->]; cbn [energy_spectrum energy_spectrum_once ballabio_spectrum]; cbn [spectrum_of] in B; rewrite B, Eg; reflexivity. }
  rewrite E in Eb. destruct (same_tables _ _ _ _ _ _ Eb) as [-> ->]. clear E Eb.
  assert (M1 : integral (points (fun x => x * bell x) 0 1000) = 0).
  { pose proof (mean_points mu sigma c (gaussian mu sigma) bell (fun x _ => gaussian_shape mu sigma x S0) I) as Q. pose proof bell_norm as B.
    rewrite Q in Mean by lra. set (N := integral (points bell 0 1000)) in *. set (J := integral (points (fun x => x * bell x) 0 1000)) in *.
    assert (Z : J / N = 0) by (apply (Rmult_eq_reg_l sigma); lra). replace J with (J / N * N) by (field; lra). rewrite Z. ring. }
  apply (close mu sigma c (gaussian mu sigma) bell S0) with (n := 1.168) (b1 := 0) (b2 := 0.00136).
  - intros x _. now apply gaussian_shape.
  - exact I.
  - lra.
  - exact bell_norm.
  - rewrite M1, Rabs_R0. lra.
  - exact bell_second.
  - lra.
  - lra.
  - lra.
Qed.
Print Assumptions C93_gaussian.

(** A D-T plasma at 10 keV, with either method. *)
Example C93_example : forall d meth, meth = SGaussian \/ meth = SMGaussian \/ meth = SAuto -> exists e p, energy_spectrum d 10 DT meth = Ok (Some (e, p), []).
Proof.
  intros d meth Hm. assert (Ht : 0 < 10 <= 40) by lra. destruct Hm as [-> |[-> | ->]].
  - destruct (C47_gaussian d DT 10 (or_introl eq_refl) Ht) as (_ & _ & _ & e & p & c & E & _). eauto.
  - destruct (C48_modified_gaussian d DT 10 (or_introl eq_refl) Ht) as (_ & _ & _ & e & p & c & E & _). eauto.
  - destruct (C48_modified_gaussian d DT 10 (or_introl eq_refl) Ht) as (_ & _ & _ & e & p & c & E & _). exists e, p. rewrite <- E. reflexivity.
Qed.
