(** Lemmas for C86: the reactivity is a continuous function of the temperature. *)
From Coq Require Import Reals Lra Lia ZArith List Bool.
From Coquelicot Require Import Coquelicot.
From Verif Require Import Base Reactions Profile SpecReactions SpecProfile ProfileProofs XsData Reactivity SpecReactivity ReactivityProofs P_Reactivity SpecSmooth.
Import ListNotations.
Open Scope R_scope.

(** ** The Bosch-Hale fit *)
Lemma theta_pos d T : 0 < T -> 0 < bhD d T * (bhD d T - bhN d T) -> bhD d T <> 0 /\ 0 < 1 - bhN d T / bhD d T.
Proof.
  intros HT HP. assert (HD : bhD d T <> 0) by (intro E; rewrite E in HP; lra). split; [exact HD|].
  replace (1 - bhN d T / bhD d T) with (bhD d T * (bhD d T - bhN d T) / (bhD d T * bhD d T)) by (field; exact HD).
  apply Rdiv_lt_0_compat; [exact HP|]. nra.
Qed.
Lemma fit_derivable d T : 0 < T -> 0 < bhD d T * (bhD d T - bhN d T) -> 0 < bg d -> 0 < mrc2 d -> ex_derive (fit_of d) T.
Proof.
  intros HT HP Hb Hm. destruct (theta_pos d T HT HP) as [HD P1].
  assert (Pt : 0 < T / (1 - bhN d T / bhD d T)) by now apply Rdiv_lt_0_compat.
  assert (Pq : 0 < bg d * bg d / (4 * (T / (1 - bhN d T / bhD d T)))) by (apply Rdiv_lt_0_compat; [nra|lra]).
  assert (PT : 0 < T * T * T) by (repeat apply Rmult_lt_0_compat; assumption).
  assert (Pm : 0 < mrc2 d * (T * T * T)) by (apply Rmult_lt_0_compat; assumption).
  unfold fit_of, bh_fit, bh_theta, Rpower. auto_derive.
  fold (bhN d T) (bhD d T) in *.
  unfold bhN, bhD, Rdiv, Rminus in *. cbn [pow]. rewrite ?Rmult_1_r.
  repeat match goal with |- _ /\ _ => split end; try exact I; try assumption.
  all: try (apply Rgt_not_eq; first [assumption | lra | apply Rmult_lt_0_compat; [lra|assumption]]).
  all: try (apply Rmult_lt_0_compat; [apply exp_pos|apply Rinv_0_lt_compat; lra]).
  all: match goal with |- ?g => idtac g end.
Qed.

(** Where the fit is regular. *)
Lemma bh_poly r T : fitted r -> 0 < T -> bh_good r T -> 0 < bhD (coeffs r) T * (bhD (coeffs r) T - bhN (coeffs r) T).
Proof.
  intros Hf HT Hg. destruct Hf as [->|[->| ->]]; cbn [coeffs]; [apply DT_poly; lra| |apply DDp_poly; lra].
  destruct Hg as [G|[G|G]]; [congruence| |]; [apply DDn_poly_low; lra|apply DDn_poly_high; lra].
Qed.
Lemma published_continuous r T : fitted r -> 0 < T -> bh_good r T -> continuity_pt (published_SI r) T.
Proof.
  intros Hf HT Hg. destruct (fitted_coeffs r Hf) as (_ & F & Hb & Hm & _).
  assert (D : ex_derive (fit_of (coeffs r)) T) by (apply fit_derivable; auto; now apply bh_poly).
  apply continuity_pt_filterlim. apply (continuous_ext_loc (U := R_UniformSpace) (T := R_UniformSpace) _ (fun x => fit_of (coeffs r) x / 1000000) T).
  - exists (mkposreal T HT). intros y Hy. change (Rabs (y - T) < T) in Hy. apply Rabs_def2 in Hy. unfold published_SI. destruct (Rle_dec y 0); [lra|]. now rewrite F.
  - apply (ex_derive_continuous (fun x => fit_of (coeffs r) x / 1000000) T). apply (ex_derive_ext (fun x => / 1000000 * fit_of (coeffs r) x)); [intro t; unfold Rdiv; apply Rmult_comm|]. apply ex_derive_scal. exact D.
Qed.

(** The fit falls to zero with the temperature: it is at most 1 / xi, and xi grows like the cube root of 100 / T. *)
Lemma exp_cube x : 0 < x -> x * x * x <= exp (3 * x).
Proof.
  intro H. assert (E : x < exp x) by (pose proof (exp_ineq1 x); lra). replace (3 * x) with (x + x + x) by ring. rewrite !exp_plus. set (e := exp x) in *. assert (x * x <= e * e) by nra. nra.
Qed.
Lemma xi_cube q : 0 < q -> Rpower q (1 / 3) * Rpower q (1 / 3) * Rpower q (1 / 3) = q.
Proof. intro H. rewrite <- !Rpower_plus. replace (1 / 3 + 1 / 3 + 1 / 3) with 1 by lra. now apply Rpower_1. Qed.
Lemma fit_cold d T : 0 < T <= 1 -> 30 <= bg d <= 40 -> 1 <= mrc2 d -> 0 < c0 d <= 1 -> / 2 <= bhD d T / (bhD d T - bhN d T) <= 2 -> bhD d T <> 0 -> bhD d T - bhN d T <> 0 ->
  exists xi, 0 < xi /\ 100 <= T * (xi * xi * xi) /\ fit_of d T * xi <= 1.
Proof.
  intros [HT H1] Hb Hm [Hc Hc1] [L U] HD HDN. set (th := T / (1 - bhN d T / bhD d T)).
  assert (Et : th = T * (bhD d T / (bhD d T - bhN d T))).
  { unfold th. field. split; auto. }
  assert (Pt : T / 2 <= th <= 2 * T) by (rewrite Et; nra).
  assert (Pq : 0 < bg d * bg d / (4 * th)) by (apply Rdiv_lt_0_compat; nra).
  set (xi := Rpower (bg d * bg d / (4 * th)) (1 / 3)). assert (Px : 0 < xi) by apply exp_pos.
  assert (C : xi * xi * xi = bg d * bg d / (4 * th)) by now apply xi_cube.
  assert (C2 : th * (xi * xi * xi) * 4 = bg d * bg d) by (rewrite C; field; lra).
  assert (B : 900 <= bg d * bg d) by nra. assert (Px3 : 0 < xi * xi * xi) by (rewrite C; exact Pq).
  assert (K : 100 <= T * (xi * xi * xi)) by nra.
  exists xi. split; [exact Px|]. split; [exact K|].
  assert (PT : 0 < T * T * T) by (repeat apply Rmult_lt_0_compat; assumption).
  assert (Pm : 0 < mrc2 d * (T * T * T)) by (apply Rmult_lt_0_compat; lra).
  unfold fit_of, bh_fit. fold (bhN d T). change (bh_theta (c1 d) (c2 d) (c3 d) (c4 d) (c5 d) (c6 d) T) with th.
  replace (bg d ^ 2) with (bg d * bg d) by ring. fold xi. replace (T ^ 3) with (T * T * T) by ring.
  (* the root is at most xi^2 / T / 10 *)
  assert (S : sqrt (xi / (mrc2 d * (T * T * T))) <= xi * xi / T / 10).
  { assert (Q : 0 <= xi * xi / T / 10) by (apply Rmult_le_pos; [apply Rlt_le, Rdiv_lt_0_compat; nra|lra]).
    rewrite <- (sqrt_square (xi * xi / T / 10)) by exact Q. apply sqrt_le_1.
    - apply Rlt_le, Rdiv_lt_0_compat; assumption.
    - now apply Rmult_le_pos.
    - apply Rle_trans with (xi / (T * T * T)).
      + unfold Rdiv. apply Rmult_le_compat_l; [lra|]. apply Rinv_le_contravar; [exact PT|]. nra.
      + apply (Rmult_le_reg_r (T * T * T)); [exact PT|]. replace (xi / (T * T * T) * (T * T * T)) with xi by (field; lra).
        replace (xi * xi / T / 10 * (xi * xi / T / 10) * (T * T * T)) with (xi * (T * (xi * xi * xi)) / 100) by (field; lra). nra. }
  assert (Ex : exp (- 3 * xi) * (xi * xi * xi) <= 1).
  { replace (- 3 * xi) with (- (3 * xi)) by ring. rewrite exp_Ropp. pose proof (exp_pos (3 * xi)) as Pe. apply (Rmult_le_reg_l (exp (3 * xi))); [exact Pe|].
    replace (exp (3 * xi) * (/ exp (3 * xi) * (xi * xi * xi))) with (xi * xi * xi) by (field; lra). rewrite Rmult_1_r. now apply exp_cube. }
  set (s := sqrt _) in *. set (e := exp _) in *. assert (Pe : 0 < e) by apply exp_pos. assert (Ps : 0 <= s) by apply sqrt_pos.
  apply Rle_trans with (c0 d * (2 * T) * (xi * xi / T / 10) * e * xi).
  - apply Rmult_le_compat_r; [lra|]. apply Rmult_le_compat_r; [lra|]. apply Rmult_le_compat; [|exact Ps| |exact S]; nra.
  - replace (c0 d * (2 * T) * (xi * xi / T / 10) * e * xi) with (c0 d / 5 * (e * (xi * xi * xi))) by (field; lra). assert (0 <= e * (xi * xi * xi)) by nra. nra.
Qed.
Lemma published_cold r eps : fitted r -> 0 < eps -> exists del, 0 < del /\ forall T, T < del -> 0 <= published_SI r T < eps.
Proof.
  intros Hf He. exists (Rmin 1 (eps * eps * eps)). assert (P3 : 0 < eps * eps * eps) by (repeat apply Rmult_lt_0_compat; exact He). split; [apply Rmin_glb_lt; lra|].
  intros T HT. assert (H1 : T < 1) by (eapply Rlt_le_trans; [exact HT|apply Rmin_l]). assert (H2 : T < eps * eps * eps) by (eapply Rlt_le_trans; [exact HT|apply Rmin_r]).
  unfold published_SI. destruct (Rle_dec T 0) as [N|N]; [lra|]. apply Rnot_le_lt in N.
  destruct (fitted_coeffs r Hf) as (_ & F & Hb & Hm & Hc & _). rewrite <- F.
  assert (Q : / 2 <= bhD (coeffs r) T / (bhD (coeffs r) T - bhN (coeffs r) T) <= 2 /\ bhD (coeffs r) T <> 0 /\ bhD (coeffs r) T - bhN (coeffs r) T <> 0).
  { assert (B : 1 / 2 <= bhD (coeffs r) T /\ 0 <= bhN (coeffs r) T <= 1 / 4).
    { assert (0 < T * T) by nra. assert (T * T <= T) by nra. assert (0 < T * T * T) by nra. assert (T * T * T <= T) by nra.
      unfold bhD, bhN. destruct Hf as [->|[->| ->]]; cbn [coeffs bh_DT bh_DDn bh_DDp c1 c2 c3 c4 c5 c6]; split; try split; nra. }
    set (D := bhD _ T) in *. set (Nn := bhN _ T) in *. split; [|split; lra]. split.
    - apply (Rmult_le_reg_r (D - Nn)); [lra|]. replace (D / (D - Nn) * (D - Nn)) with D by (field; lra). lra.
    - apply (Rmult_le_reg_r (D - Nn)); [lra|]. replace (D / (D - Nn) * (D - Nn)) with D by (field; lra). lra. }
  destruct Q as (Q & QD & QN).
  destruct (fit_cold (coeffs r) T) as (xi & Px & K & V); try assumption; try lra.
  1,2,3: destruct Hf as [->|[->| ->]]; cbn [coeffs bh_DT bh_DDn bh_DDp bg mrc2 c0]; lra.
  assert (P : 0 < fit_of (coeffs r) T) by (apply bh_point_ok; auto; apply bh_poly; auto; right; left; lra).
  set (f := fit_of _ T) in *. split; [apply Rlt_le, Rdiv_lt_0_compat; lra|].
  (* eps * xi > 4 *)
  assert (E1 : 1 < eps * xi).
  { destruct (Rlt_le_dec 1 (eps * xi)) as [|G]; [assumption|]. exfalso. assert (A : 0 < eps * xi) by nra. assert ((eps * xi) * (eps * xi) <= 1) by nra. assert ((eps * xi) * (eps * xi) * (eps * xi) <= 1) by nra.
    assert (0 < xi * xi * xi) by (repeat apply Rmult_lt_0_compat; exact Px). assert (T * (xi * xi * xi) <= eps * eps * eps * (xi * xi * xi)) by nra. nra. }
  assert (f < eps) by nra. lra.
Qed.
Lemma published_continuous_all r T : fitted r -> bh_good r T -> continuity_pt (published_SI r) T.
Proof.
  intros Hf Hg. destruct (Rlt_le_dec 0 T) as [P|P]; [now apply published_continuous|].
  intros eps He. destruct (published_cold r eps Hf He) as (del & Pd & K). assert (Z : published_SI r T = 0) by (unfold published_SI; destruct (Rle_dec T 0); [reflexivity|lra]).
  exists del. split; [exact Pd|]. intros y [_ D]. change (Rabs (published_SI r y - published_SI r T) < eps). rewrite Z, Rminus_0_r. change (Rabs (y - T) < del) in D. apply Rabs_def2 in D. destruct (K y ltac:(lra)). rewrite Rabs_pos_eq; lra.
Qed.

(** ** The cross-section integral *)
Lemma sum_upto_continuous n (f : nat -> R -> R) T : (forall i, (i < n)%nat -> continuity_pt (f i) T) -> continuity_pt (fun t => sum_upto n (fun i => f i t)) T.
Proof.
  induction n as [|n IH]; intro H; cbn [sum_upto]; [apply continuity_pt_const; intros ? ?; reflexivity|].
  apply (continuity_pt_plus (fun t => sum_upto n (fun i => f i t)) (f n)); [apply IH; intros; apply H; lia|apply H; lia].
Qed.
Lemma integrand_continuous mu k s E T : 0 < k -> 0 < T -> continuity_pt (fun t => maxwell_integrand mu (t * k) s E) T.
Proof.
  intros Hk HT. apply continuity_pt_filterlim. apply (ex_derive_continuous (fun t => maxwell_integrand mu (t * k) s E) T). unfold maxwell_integrand.
  assert (0 < T * k) by nra. assert (0 < sqrt (T * k)) by now apply sqrt_lt_R0. auto_derive. repeat split; try assumption; try lra; apply Rgt_not_eq; try lra; now apply Rmult_lt_0_compat.
Qed.
Lemma xs_value_continuous u mu s T : 0 < keV_J u -> 0 < T -> continuity_pt (xs_value u mu s) T.
Proof.
  intros Hk HT. unfold xs_value, trapezoid_rule.
  apply (sum_upto_continuous _ (fun i t => (log_node (S i) * keV_J u - log_node i * keV_J u) * (maxwell_integrand mu (t * keV_J u) (s (log_node i)) (log_node i * keV_J u) + maxwell_integrand mu (t * keV_J u) (s (log_node (S i))) (log_node (S i) * keV_J u)) / 2)).
  intros i _. set (k := _ - _).
  apply (continuity_pt_mult (fun t => k * (maxwell_integrand mu (t * keV_J u) (s (log_node i)) (log_node i * keV_J u) + maxwell_integrand mu (t * keV_J u) (s (log_node (S i))) (log_node (S i) * keV_J u))) (fun _ => / 2)); [|apply continuity_pt_const; intros ? ?; reflexivity].
  apply (continuity_pt_mult (fun _ => k) (fun t => maxwell_integrand mu (t * keV_J u) (s (log_node i)) (log_node i * keV_J u) + maxwell_integrand mu (t * keV_J u) (s (log_node (S i))) (log_node (S i) * keV_J u))); [apply continuity_pt_const; intros ? ?; reflexivity|].
  apply (continuity_pt_plus (fun t => maxwell_integrand mu (t * keV_J u) (s (log_node i)) (log_node i * keV_J u)) (fun t => maxwell_integrand mu (t * keV_J u) (s (log_node (S i))) (log_node (S i) * keV_J u))); now apply integrand_continuous.
Qed.
(** It falls to zero at least like the root of the temperature. *)
Lemma exp_square x : 0 < x -> x * x <= 4 * exp x.
Proof. intro H. assert (E : x / 2 < exp (x / 2)) by (pose proof (exp_ineq1 (x / 2)); lra). replace x with (x / 2 + x / 2) at 3 by lra. rewrite exp_plus. nra. Qed.
Lemma integrand_cold mu k s E : 0 < k -> 0 < mu -> 0 < E -> exists M, 0 <= M /\ forall T, 0 < T -> Rabs (maxwell_integrand mu (T * k) s E) <= M * sqrt (T * k).
Proof.
  intros Hk Hm HE. pose proof PI_RGT_0 as Pp. set (A := sqrt (8 / (PI * mu))). assert (PA : 0 <= A) by apply sqrt_pos.
  exists (A * Rabs s * (4 / E)). pose proof (Rabs_pos s) as Ps. assert (P4 : 0 < 4 / E) by (apply Rdiv_lt_0_compat; lra). split; [repeat apply Rmult_le_pos; lra|].
  intros T HT. set (q := T * k). assert (Pq : 0 < q) by (unfold q; nra). set (w := sqrt q). assert (Pw : 0 < w) by now apply sqrt_lt_R0. assert (Ew : w * w = q) by (apply sqrt_sqrt; lra).
  unfold maxwell_integrand. fold A w. set (e := exp (- (E / q))).
  assert (He : e * (E * E) <= 4 * (q * q)).
  { unfold e. rewrite exp_Ropp. pose proof (exp_square (E / q) ltac:(apply Rdiv_lt_0_compat; lra)) as S. pose proof (exp_pos (E / q)) as Pe. set (g := exp (E / q)) in *.
    apply (Rmult_le_reg_l g); [exact Pe|]. replace (g * (/ g * (E * E))) with (E * E) by (field; lra).
    replace (E * E) with (E / q * (E / q) * (q * q)) by (field; lra). assert (0 < q * q) by nra. nra. }
  assert (Pe : 0 < e) by apply exp_pos.
  assert (Pd : 0 < q * w) by nra.
  unfold Rdiv. rewrite !Rabs_mult, (Rabs_pos_eq A PA), (Rabs_pos_eq E), (Rabs_pos_eq e) by lra. rewrite (Rabs_pos_eq (/ (q * w))) by (left; now apply Rinv_0_lt_compat).
  replace (A * / (q * w) * (Rabs s * E * e)) with (A * Rabs s * (E * e / (q * w))) by (field; split; lra). rewrite (Rmult_assoc (A * Rabs s)). apply Rmult_le_compat_l; [now apply Rmult_le_pos|].
  apply (Rmult_le_reg_r (q * w * E)); [apply Rmult_lt_0_compat; lra|]. replace (E * e / (q * w) * (q * w * E)) with (e * (E * E)) by (field; split; lra). replace (4 * / E * w * (q * w * E)) with (4 * (q * (w * w))) by (field; lra). rewrite Ew. exact He.
Qed.
Lemma sum_upto_abs n f : Rabs (sum_upto n f) <= sum_upto n (fun i => Rabs (f i)).
Proof. induction n as [|n IH]; cbn [sum_upto]; [rewrite Rabs_R0; lra|]. eapply Rle_trans; [apply Rabs_triang|]. lra. Qed.
Lemma sum_bound n (f : nat -> R -> R) (w : R -> R) : (forall i, (i < n)%nat -> exists M, 0 <= M /\ forall T, 0 < T -> Rabs (f i T) <= M * w T) -> exists M, 0 <= M /\ forall T, 0 < T -> Rabs (sum_upto n (fun i => f i T)) <= M * w T.
Proof.
  induction n as [|n IH]; intro H; cbn [sum_upto]; [exists 0; split; [lra|]; intros; rewrite Rabs_R0; lra|].
  destruct IH as (M & PM & K); [intros; apply H; lia|]. destruct (H n ltac:(lia)) as (M' & PM' & K'). exists (M + M'). split; [lra|]. intros T HT.
  eapply Rle_trans; [apply Rabs_triang|]. specialize (K T HT). specialize (K' T HT). lra.
Qed.
Lemma xs_value_cold u mu s eps : 0 < keV_J u -> 0 < mu -> 0 < eps -> exists del, 0 < del /\ forall T, 0 < T < del -> Rabs (xs_value u mu s T) < eps.
Proof.
  intros Hk Hm He.
  assert (B : exists M, 0 <= M /\ forall T, 0 < T -> Rabs (xs_value u mu s T) <= M * sqrt (T * keV_J u)).
  { unfold xs_value, trapezoid_rule.
    apply (sum_bound _ (fun i t => (log_node (S i) * keV_J u - log_node i * keV_J u) * (maxwell_integrand mu (t * keV_J u) (s (log_node i)) (log_node i * keV_J u) + maxwell_integrand mu (t * keV_J u) (s (log_node (S i))) (log_node (S i) * keV_J u)) / 2) (fun t => sqrt (t * keV_J u))).
    intros i Hi. assert (P : forall j, 0 < log_node j * keV_J u) by (intro j; apply Rmult_lt_0_compat; [apply exp_pos|exact Hk]).
    destruct (integrand_cold mu (keV_J u) (s (log_node i)) _ Hk Hm (P i)) as (M1 & P1 & K1). destruct (integrand_cold mu (keV_J u) (s (log_node (S i))) _ Hk Hm (P (S i))) as (M2 & P2 & K2).
    set (k := _ - _). pose proof (Rabs_pos k) as Pk. exists (Rabs k * (M1 + M2)). split; [apply Rmult_le_pos; lra|]. intros T HT. specialize (K1 T HT). specialize (K2 T HT).
    unfold Rdiv. rewrite !Rabs_mult, (Rabs_pos_eq (/ 2)) by lra. set (a := maxwell_integrand _ _ _ _) in *. set (b := maxwell_integrand mu _ (s (log_node (S i))) _) in *. set (w := sqrt _) in *.
    pose proof (Rabs_triang a b) as Tr. pose proof (Rabs_pos (a + b)). rewrite !Rmult_assoc. apply Rmult_le_compat_l; [exact Pk|]. lra. }
  destruct B as (M & PM & K). set (e := eps / (M + 1)). assert (Pe : 0 < e) by (apply Rdiv_lt_0_compat; lra). assert (Ee : (M + 1) * e = eps) by (unfold e; field; lra).
  exists (e * e / keV_J u). split; [apply Rdiv_lt_0_compat; nra|]. intros T [HT HU]. eapply Rle_lt_trans; [now apply K|].
  assert (S : sqrt (T * keV_J u) < e).
  { rewrite <- (sqrt_square e) by lra. apply sqrt_lt_1_alt. split; [nra|]. apply (Rmult_lt_compat_r (keV_J u)) in HU; [|exact Hk]. replace (e * e / keV_J u * keV_J u) with (e * e) in HU by (field; lra). exact HU. }
  assert (M * sqrt (T * keV_J u) <= M * e) by (apply Rmult_le_compat_l; lra). lra.
Qed.
