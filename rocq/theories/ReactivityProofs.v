(** Lemmas about the reactivity model. *)
From Coq Require Import Sorted Permutation.
From Verif Require Import Base Reactions Profile SpecReactions SpecProfile ProfileProofs XsData Reactivity SpecReactivity.

(** ** Bosch-Hale *)
Definition bhN (d : bh_coeffs) (T : R) : R := T * (c1 d + T * (c3 d + T * c5 d)).
Definition bhD (d : bh_coeffs) (T : R) : R := 1 + T * (c2 d + T * (c4 d + T * c6 d)).
Definition fit_of (d : bh_coeffs) (T : R) : R :=
  bh_fit (bg d) (mrc2 d) (c0 d) (c1 d) (c2 d) (c3 d) (c4 d) (c5 d) (c6 d) T.

Lemma bh_point_ok d T : 0 < T -> 0 < bhD d T * (bhD d T - bhN d T) -> 0 < bg d -> 0 < mrc2 d -> 0 < c0 d ->
  bh_point d T = Ok (fit_of d T / 1000000) /\ 0 < fit_of d T.
Proof.
  intros HT HP Hb Hm Hc.
  assert (HD : bhD d T <> 0) by (intro E; rewrite E in HP; lra).
  assert (HDN : bhD d T - bhN d T <> 0) by (intro E; rewrite E in HP; lra).
  assert (E1 : 1 - bhN d T / bhD d T = (bhD d T - bhN d T) / bhD d T) by (field; exact HD).
  assert (P1 : 0 < 1 - bhN d T / bhD d T).
  { rewrite E1. replace ((bhD d T - bhN d T) / bhD d T) with (bhD d T * (bhD d T - bhN d T) / (bhD d T * bhD d T)) by (field; exact HD).
    apply Rdiv_lt_0_compat; [exact HP|]. nra. }
  set (th := T / (1 - bhN d T / bhD d T)).
  assert (Pt : 0 < th) by (apply Rdiv_lt_0_compat; assumption).
  assert (Pq : 0 < bg d * bg d / (4 * th)) by (apply Rdiv_lt_0_compat; nra).
  set (xi := Rpower (bg d * bg d / (4 * th)) (1 / 3)). assert (Px : 0 < xi) by apply exp_pos.
  assert (PT : 0 < T * T * T) by (repeat apply Rmult_lt_0_compat; assumption).
  assert (Pm : 0 < mrc2 d * (T * T * T)) by (apply Rmult_lt_0_compat; assumption).
  assert (Ps : 0 < xi / (mrc2 d * (T * T * T))) by (apply Rdiv_lt_0_compat; assumption).
  assert (F : fit_of d T = c0 d * th * sqrt (xi / (mrc2 d * (T * T * T))) * exp (-3 * xi)).
  { unfold fit_of, bh_fit. fold (bhN d T). change (bh_theta (c1 d) (c2 d) (c3 d) (c4 d) (c5 d) (c6 d) T) with th.
    replace (bg d ^ 2) with (bg d * bg d) by ring. fold xi. replace (T ^ 3) with (T * T * T) by ring. reflexivity. }
  split.
  - unfold bh_point. destruct (Rltb_spec 0 T); [|lra]. fold (bhN d T) (bhD d T).
    rewrite np_div_ok by exact HD. cbn [bind]. rewrite np_div_ok by lra. cbn [bind]. fold th.
    rewrite np_div_ok by lra. cbn [bind]. rewrite np_pow_pos by exact Pq. cbn [bind]. fold xi.
    rewrite np_div_ok by lra. cbn [bind]. rewrite np_sqrt_ok by lra. cbn [bind]. rewrite F. f_equal. field.
  - rewrite F. apply Rmult_lt_0_compat; [|apply exp_pos]. apply Rmult_lt_0_compat; [nra|]. now apply sqrt_lt_R0.
Qed.

Lemma bh_point_nonpos d T : T <= 0 -> bh_point d T = Ok 0.
Proof. intro H. unfold bh_point. destruct (Rltb_spec 0 T); [lra|reflexivity]. Qed.

(** Where the fit breaks: numerator and denominator of opposite sign (or a zero). *)
Lemma bh_point_bad d T : 0 < T -> 0 < bg d -> 0 <= bhD d T -> bhD d T - bhN d T <= 0 -> bh_point d T = NonFinite.
Proof.
  intros HT Hb HD HN. unfold bh_point. destruct (Rltb_spec 0 T); [|lra]. fold (bhN d T) (bhD d T).
  unfold np_div at 1. destruct (Reqb_spec (bhD d T) 0) as [E|E]; [reflexivity|]. cbn [bind].
  assert (E1 : 1 - bhN d T / bhD d T = (bhD d T - bhN d T) / bhD d T) by (field; exact E).
  unfold np_div at 1. destruct (Reqb_spec (1 - bhN d T / bhD d T) 0) as [E'|E']; [reflexivity|]. cbn [bind].
  assert (P : 1 - bhN d T / bhD d T < 0).
  { assert (1 - bhN d T / bhD d T <= 0); [|lra]. rewrite E1.
    assert (0 < / bhD d T) by (apply Rinv_0_lt_compat; lra). unfold Rdiv; nra. }
  assert (Q : T / (1 - bhN d T / bhD d T) < 0).
  { generalize dependent (1 - bhN d T / bhD d T). intros q _ _ Hq. apply Rinv_lt_0_compat in Hq. unfold Rdiv. nra. }
  set (th := T / (1 - bhN d T / bhD d T)) in *.
  rewrite np_div_ok by lra. cbn [bind].
  assert (bg d * bg d / (4 * th) < 0).
  { assert (I : / (4 * th) < 0) by (apply Rinv_lt_0_compat; lra). assert (0 < bg d * bg d) by nra.
    unfold Rdiv. generalize dependent (/ (4 * th)). intros i Hi. nra. }
  unfold np_pow. destruct (Rltb_spec 0 (bg d * bg d / (4 * th))); [lra|].
  destruct (Reqb_spec (bg d * bg d / (4 * th)) 0); [lra|reflexivity].
Qed.

Lemma DT_poly T : 0 < T -> 0 < bhD bh_DT T * (bhD bh_DT T - bhN bh_DT T).
Proof.
  intro H. unfold bhD, bhN, bh_DT; cbn [c1 c2 c3 c4 c5 c6]. assert (0 < T * T) by nra. assert (0 < T * T * T) by nra.
  apply Rmult_lt_0_compat; nra.
Qed.
Lemma DDp_poly T : 0 < T -> 0 < bhD bh_DDp T * (bhD bh_DDp T - bhN bh_DDp T).
Proof.
  intro H. unfold bhD, bhN, bh_DDp; cbn [c1 c2 c3 c4 c5 c6]. assert (0 < T * T) by nra.
  apply Rmult_lt_0_compat; [nra|].
  match goal with |- 0 < ?e => replace e with (1 - 0.001421 * T + 0.0000105060 * (T * T)) by lra end.
  pose proof (Rle_0_sqr (T - 60)) as S. unfold Rsqr in S. nra.
Qed.
Lemma DDn_poly_low T : 0 < T <= 965 -> 0 < bhD bh_DDn T * (bhD bh_DDn T - bhN bh_DDn T).
Proof.
  intro H. unfold bhD, bhN, bh_DDn; cbn [c1 c2 c3 c4 c5 c6].
  assert (0 <= T * (965 - T)) by nra.
  apply Rmult_lt_0_compat; nra.
Qed.
Lemma DDn_poly_mid T : 966 <= T <= 2716 -> 0 <= bhD bh_DDn T /\ bhD bh_DDn T - bhN bh_DDn T <= 0.
Proof.
  intro H. unfold bhD, bhN, bh_DDn; cbn [c1 c2 c3 c4 c5 c6].
  assert (0 <= (T - 966) * (2716 - T)) by nra. assert (0 <= (T - 966) * T) by nra. split; nra.
Qed.
Lemma DDn_poly_high T : 2717 <= T -> 0 < bhD bh_DDn T * (bhD bh_DDn T - bhN bh_DDn T).
Proof.
  intro H. assert (Q : 0 <= (T - 2717) * T) by nra.
  assert (A : bhD bh_DDn T < 0) by (unfold bhD, bhN, bh_DDn; cbn [c1 c2 c3 c4 c5 c6]; lra).
  assert (B : bhD bh_DDn T - bhN bh_DDn T < 0) by (unfold bhD, bhN, bh_DDn; cbn [c1 c2 c3 c4 c5 c6]; lra).
  
  generalize dependent (bhD bh_DDn T - bhN bh_DDn T). intros x Hx. generalize dependent (bhD bh_DDn T). intros y Hy. clear -Hx Hy. nra.
Qed.

Definition coeffs (r : reaction) : bh_coeffs := match r with DT => bh_DT | DDn => bh_DDn | _ => bh_DDp end.
Lemma fitted_coeffs r : fitted r -> bosch_hale_coefficients r = Some (coeffs r) /\
  (forall T, fit_of (coeffs r) T = published r T) /\ 0 < bg (coeffs r) /\ 0 < mrc2 (coeffs r) /\ 0 < c0 (coeffs r) /\
  t_min (coeffs r) = 0.2 /\ t_max (coeffs r) = 100.
Proof.
  intros [->|[->| ->]]; unfold coeffs, bh_DT, bh_DDn, bh_DDp; cbn [bg mrc2 c0 t_min t_max];
  (split; [reflexivity|]; split; [intro T; unfold fit_of, published; cbn [bg mrc2 c0 c1 c2 c3 c4 c5 c6]; f_equal; lra|]; lra).
Qed.
Lemma not_fitted r : ~ fitted r -> bosch_hale_coefficients r = None.
Proof. intro H. destruct r; try reflexivity; exfalso; apply H; unfold fitted; auto. Qed.

(** Temperatures at which the fit is finite and positive. *)
Definition bh_good (r : reaction) (T : R) : Prop := r <> DDn \/ T <= 965 \/ 2717 <= T.
Lemma fitted_point r T : fitted r -> bh_good r T ->
  bh_point (coeffs r) T = Ok (published_SI r T) /\ (0 < T -> 0 < published_SI r T).
Proof.
  intros Hf Hg. destruct (fitted_coeffs r Hf) as (_ & F & Hb & Hm & Hc & _). unfold published_SI.
  destruct (Rle_dec T 0) as [HT|HT]; [split; [now apply bh_point_nonpos|lra]|].
  destruct (bh_point_ok (coeffs r) T) as [E P]; try assumption; try lra.
  { destruct Hf as [->|[->| ->]]; cbn [coeffs]; [apply DT_poly; lra| |apply DDp_poly; lra].
    destruct Hg as [G|[G|G]]; [congruence| |]; [apply DDn_poly_low; lra|apply DDn_poly_high; lra]. }
  rewrite F in *. split; [exact E|]. intros _. lra.
Qed.

Lemma bh_ok r temps : fitted r -> temps <> [] -> (forall T, In T temps -> bh_good r T) ->
  exists w, reactivity_bosch_hale temps r = Ok (map (published_SI r) temps, w) /\
   ((exists T, In T temps /\ (T < 0.2 \/ 100 < T)) -> exists lo hi, w = [WOutOfRange lo hi] /\ In lo temps /\ In hi temps /\
        forall T, In T temps -> lo <= T <= hi) /\
   ((forall T, In T temps -> 0.2 <= T <= 100) -> w = []).
Proof.
  intros Hf Hn Hg. destruct (fitted_coeffs r Hf) as (C & _ & _ & _ & _ & Cl & Ch).
  unfold reactivity_bosch_hale. rewrite C. unfold channel_bosch_hale.
  destruct temps as [|t ts]; [congruence|].
  destruct (np_min (t :: ts)) as [lo| |] eqn:L; try discriminate.
  destruct (np_max (t :: ts)) as [hi| |] eqn:U; try discriminate.
  apply np_min_spec in L. apply np_max_spec in U. destruct L as [L1 L2], U as [U1 U2]. cbn [bind].
  rewrite (mapM_pure _ (published_SI r)) by (intros T HT; apply fitted_point; auto). cbn [bind].
  rewrite Cl, Ch. eexists; split; [reflexivity|]. split.
  - intros (T & HT & HO). exists lo, hi.
    assert (All : forall T, In T (t :: ts) -> lo <= T <= hi) by (intros; split; auto).
    destruct (Rltb_spec lo 0.2); cbn [orb]; [auto|]. destruct (Rltb_spec 100 hi); [auto|].
    exfalso. specialize (All T HT). destruct HO; lra.
  - intro H. destruct (Rltb_spec lo 0.2); [exfalso; specialize (H lo L1); lra|].
    destruct (Rltb_spec 100 hi); [exfalso; specialize (H hi U1); lra|]. reflexivity.
Qed.

(** ** Cross sections *)

(** Strictly increasing energies, first sigma >= 0, later ones > 0: a computable check on integers. *)
Fixpoint table_ok (e : Z) (l : list (Z * Z)) : bool :=
  match l with [] => true | (e', s') :: r => (e <? e')%Z && (0 <? s')%Z && table_ok e' r end.
Definition last_e (e : Z) (l : list (Z * Z)) : Z := fold_left (fun _ p => fst p) l e.
(** At most 0.0005 MeV first, at least 15 MeV last (lab frame). *)
Definition file_ok (rows : list (Z * Z)) : bool :=
  match rows with
  | [] => false
  | (e, s) :: l => (e <=? 500000)%Z && (0 <=? s)%Z && table_ok e l && (15000000000 <=? last_e e l)%Z
  end.

(** Tables of reals with the same properties. *)
Fixpoint rtable_ok (x : R) (l : list (R * R)) : Prop :=
  match l with [] => True | (x', y') :: r => x < x' /\ 0 < y' /\ rtable_ok x' r end.

Lemma rtable_sorted x y l : rtable_ok x l -> StronglySorted ltx ((x, y) :: l).
Proof.
  revert x y; induction l as [|[x' y'] l IH]; intros x y; cbn [rtable_ok]; [repeat constructor|].
  intros (H1 & _ & H3). specialize (IH x' y' H3). constructor; [exact IH|].
  inversion IH as [|? ? Hs Hf]; subst. constructor; [exact H1|].
  eapply Forall_impl; [|exact Hf]. unfold ltx; cbn; intros; lra.
Qed.
Lemma sort_pairs_id l : StronglySorted ltx l -> sort_pairs l = l.
Proof.
  intro H. apply sorted_perm_eq; [|exact H|apply sort_pairs_perm].
  apply sort_pairs_strict. unfold distinct_radii. clear -H. induction H as [|p l Hs IH Hp]; cbn; constructor; [|exact IH].
  intro Hi. apply in_map_iff in Hi. destruct Hi as (q & E & Hq). rewrite Forall_forall in Hp. specialize (Hp q Hq).
  unfold ltx in Hp. lra.
Qed.
Lemma interp_positive x0 y0 l v : rtable_ok x0 l -> x0 < v \/ 0 < y0 -> 0 <= y0 -> x0 <= v <= last_x x0 l ->
  0 < interp_from x0 y0 l v.
Proof.
  revert x0 y0; induction l as [|[x1 y1] l IH]; intros x0 y0 Ht Hp Hy Hv; cbn [interp_from last_x rtable_ok] in *.
  - destruct Hp; lra.
  - destruct Ht as (H1 & H2 & H3). destruct (Rleb_spec x1 v) as [L|L]; [apply IH; auto; lra|].
    replace ((y1 - y0) / (x1 - x0) * (v - x0) + y0) with ((y1 * (v - x0) + y0 * (x1 - v)) / (x1 - x0)) by (field; lra).
    apply Rdiv_lt_0_compat; [|lra]. destruct Hp; nra.
Qed.

Definition scale_row (f : R) (p : Z * Z) : R * R := (IZR (fst p) / 10 ^ 9 * f * 1e3, IZR (snd p) / 10 ^ 43 * 1e-28).
Lemma scale_rtable f e l : 0 < f -> table_ok e l = true -> rtable_ok (IZR e / 10 ^ 9 * f * 1e3) (map (scale_row f) l).
Proof.
  intro Hf. revert e; induction l as [|[e' s'] l IH]; intro e; cbn [table_ok map rtable_ok scale_row fst snd]; [trivial|].
  rewrite !andb_true_iff. intros [[H1 H2] H3]. apply Z.ltb_lt in H1, H2. apply IZR_lt in H1, H2.
  split; [|split; [|apply IH, H3]].
  - assert (0 < 10 ^ 9) by lra. apply Rmult_lt_compat_r; [lra|]. apply Rmult_lt_compat_r; [exact Hf|].
    apply Rmult_lt_compat_r; [apply Rinv_0_lt_compat; lra|exact H1].
  - apply Rmult_lt_0_compat; [|lra]. apply Rdiv_lt_0_compat; [exact H2|]. apply pow_lt; lra.
Qed.
Lemma scale_last f e l : last_x (IZR e / 10 ^ 9 * f * 1e3) (map (scale_row f) l) = IZR (last_e e l) / 10 ^ 9 * f * 1e3.
Proof. revert e; induction l as [|[e' s'] l IH]; intro e; cbn; [reflexivity|]. apply IH. Qed.

(** A cross section that covers 1..1000 keV and is positive there. *)
Definition covers (sigma : R -> res R) : Prop := forall E, 1 <= E <= 1000 -> exists s, sigma E = Ok s /\ 0 < s.

Lemma make_xs_ok u lines rows m1 m2 : genfromtxt lines 2 = Ok rows -> file_ok rows = true ->
  1.9 < m1 < 3.2 -> 1.9 < m2 < 3.2 -> 0 < amu_kg u ->
  exists xs, make_xs u lines m1 m2 = Ok xs /\ reduced_mass xs = m1 * m2 / (m1 + m2) * amu_kg u /\ 0 < reduced_mass xs /\
    xs_tab xs = map (scale_row (m2 / (m1 + m2))) rows /\
    covers (interp1d_call (xs_tab xs)).
Proof.
  intros G F H1 H2 Hu. unfold make_xs. rewrite G. cbn [bind]. rewrite !np_div_ok by lra. cbn [bind].
  assert (Hf : 0.3 < m2 / (m1 + m2) < 0.7).
  { assert (0 < / (m1 + m2)) by (apply Rinv_0_lt_compat; lra). assert (/ (m1 + m2) * (m1 + m2) = 1) by (field; lra).
    unfold Rdiv. split; nra. }
  set (f := m2 / (m1 + m2)) in *.
  destruct rows as [|[e s] l]; [discriminate|]. cbn [file_ok] in F. rewrite !andb_true_iff in F.
  destruct F as [[[F1 F2] F3] F4]. apply Z.leb_le in F1, F2, F4. apply IZR_le in F1, F2, F4.
  change (map (fun p => (IZR (fst p) / 10 ^ 9 * f * 1e3, IZR (snd p) / 10 ^ 43 * 1e-28)) ((e, s) :: l))
    with (map (scale_row f) ((e, s) :: l)).
  assert (T : rtable_ok (IZR e / 10 ^ 9 * f * 1e3) (map (scale_row f) l)) by (apply scale_rtable; [lra|exact F3]).
  assert (Es : sort_pairs (map (scale_row f) ((e, s) :: l)) = map (scale_row f) ((e, s) :: l)).
  { apply sort_pairs_id. cbn [map]. unfold scale_row at 1; cbn [fst snd]. now apply rtable_sorted. }
  eexists; split; [reflexivity|]. cbn [reduced_mass xs_tab]. split; [reflexivity|]. split.
  { apply Rmult_lt_0_compat; [|exact Hu]. apply Rdiv_lt_0_compat; nra. }
  split; [exact Es|]. rewrite Es. intros E HE. cbn [map]. unfold scale_row at 1; cbn [fst snd interp1d_call].
  rewrite scale_last.
  set (x0 := IZR e / 10 ^ 9 * f * 1e3) in *. set (xl := IZR (last_e e l) / 10 ^ 9 * f * 1e3).
  assert (X0 : x0 < 1). { unfold x0. nra. }
  assert (Xl : 1000 < xl). { unfold xl. nra. }
  destruct (Rltb_spec E x0); [lra|]. destruct (Rltb_spec xl E); [lra|]. eexists; split; [reflexivity|].
  apply interp_positive; [exact T|left; lra| |].
  - apply Rmult_le_pos; [|lra]. apply Rmult_le_pos; [exact F2|]. left. apply Rinv_0_lt_compat, pow_lt. lra.
  - split; [lra|]. unfold x0. rewrite scale_last. fold xl. lra.
Qed.

(** ** The grid *)
Lemma grid_eq : t_grid_kev = map log_node (seq 0 1000).
Proof.
  unfold t_grid_kev, linspace. rewrite map_map. apply map_ext. intro i. unfold log_node. f_equal.
  rewrite (INR_IZR_INZ 999). change (IZR (Z.of_nat 999)) with 999. field.
Qed.
Lemma Rpower_10_le x y : x <= y -> Rpower 10 x <= Rpower 10 y.
Proof. intro H. apply Rle_Rpower; lra. Qed.
Lemma log_node_range i : (i < 1000)%nat -> 1 <= log_node i <= 1000.
Proof.
  intro H. unfold log_node. assert (0 <= INR i <= 999).
  { split; [apply pos_INR|]. replace 999 with (INR 999) by (rewrite INR_IZR_INZ; reflexivity). apply le_INR; lia. }
  split.
  - rewrite <- (Rpower_O 10) at 1 by lra. apply Rpower_10_le. lra.
  - replace 1000 with (Rpower 10 3). { apply Rpower_10_le. lra. }
    replace 3 with (INR 3) by (cbn; ring). rewrite Rpower_pow by lra. ring.
Qed.
Lemma log_node_lt i j : (i < j)%nat -> log_node i < log_node j.
Proof. intro H. unfold log_node. apply Rpower_lt; [lra|]. apply lt_INR in H. lra. Qed.

Lemma sum_upto_ext n f g : (forall i, (i < n)%nat -> f i = g i) -> sum_upto n f = sum_upto n g.
Proof. induction n as [|n IH]; cbn; intro H; [reflexivity|]. rewrite IH by auto. rewrite H by lia. reflexivity. Qed.
Lemma sum_upto_S n f : sum_upto (S n) f = f 0%nat + sum_upto n (fun i => f (S i)).
Proof. induction n as [|n IH]; cbn [sum_upto] in *; [ring|]. rewrite IH. ring. Qed.
Lemma sum_upto_pos n f : (0 < n)%nat -> (forall i, (i < n)%nat -> 0 < f i) -> 0 < sum_upto n f.
Proof.
  intros Hn H. destruct n as [|n]; [lia|]. clear Hn. induction n as [|n IH]; cbn [sum_upto] in *.
  - specialize (H 0%nat ltac:(lia)). lra.
  - pose proof (H (S n) ltac:(lia)). assert (0 < sum_upto n f + f n) by (apply IH; intros; apply H; lia). lra.
Qed.
Lemma sum_upto_scale n c f : sum_upto n (fun i => c * f i) = c * sum_upto n f.
Proof. induction n as [|n IH]; cbn; [ring|]. rewrite IH; ring. Qed.
Lemma sum_upto_plus n f g : sum_upto n (fun i => f i + g i) = sum_upto n f + sum_upto n g.
Proof. induction n as [|n IH]; cbn; [ring|]. rewrite IH; ring. Qed.

Lemma trapezoid_sum (f x : nat -> R) a n :
  trapezoid (map f (seq a n)) (map x (seq a n)) = trapezoid_rule n (fun i => x (a + i)%nat) (fun i => f (a + i)%nat).
Proof.
  unfold trapezoid_rule. revert a; induction n as [|n IH]; intro a; [reflexivity|].
  destruct n as [|n]; [reflexivity|].
  cbn [seq map] in *. rewrite trapezoid_cons, (IH (S a)). replace (S (S n) - 1)%nat with (S n) by lia.
  rewrite sum_upto_S. replace (S n - 1)%nat with n by lia. f_equal.
  - rewrite !Nat.add_0_r. replace (a + 1)%nat with (S a) by lia. field.
  - apply sum_upto_ext. intros i _. replace (S a + i)%nat with (a + S i)%nat by lia.
    replace (S a + S i)%nat with (a + S (S i))%nat by lia. reflexivity.
Qed.

Lemma combine_map {A B C} (f : A -> B) (g : A -> C) l : combine (map f l) (map g l) = map (fun a => (f a, g a)) l.
Proof. induction l; cbn; congruence. Qed.

Lemma Rpower_15 x : 0 < x -> Rpower x 1.5 = x * sqrt x.
Proof.
  intro H. replace 1.5 with (1 + / 2) by lra. rewrite Rpower_plus, Rpower_1, Rpower_sqrt by assumption. reflexivity.
Qed.
Lemma factor_eq mu kT : 0 < mu -> 0 < kT -> 4 / sqrt (2 * PI * mu) / Rpower kT 1.5 = sqrt (8 / (PI * mu)) / (kT * sqrt kT).
Proof.
  intros Hm Hk. rewrite Rpower_15 by exact Hk. f_equal. pose proof PI_RGT_0 as HP.
  assert (0 < PI * mu) by nra. symmetry. apply sqrt_lem_1.
  - apply Rmult_le_pos; [lra|]. left; apply Rinv_0_lt_compat; lra.
  - apply Rmult_le_pos; [lra|]. left; apply Rinv_0_lt_compat, sqrt_lt_R0; lra.
  - assert (0 < sqrt (2 * PI * mu)) by (apply sqrt_lt_R0; lra).
    replace (4 / sqrt (2 * PI * mu) * (4 / sqrt (2 * PI * mu))) with (16 / (sqrt (2 * PI * mu) * sqrt (2 * PI * mu))) by (field; lra).
    rewrite sqrt_sqrt by lra. field. lra.
Qed.

(** Outcome of one temperature for any cross section defined on the grid. *)
Lemma xs_point_ok u mu sigma (s : R -> R) T : 0 < mu -> 0 < keV_J u -> 0 < T ->
  (forall i, (i < 1000)%nat -> sigma (log_node i) = Ok (s (log_node i))) ->
  xs_point u mu sigma T = Ok (trapezoid_rule 1000 (fun i => log_node i * keV_J u)
     (fun i => maxwell_integrand mu (T * keV_J u) (s (log_node i)) (log_node i * keV_J u))).
Proof.
  intros Hm Hk HT Hs. unfold xs_point. rewrite grid_eq. pose proof PI_RGT_0 as HP.
  rewrite (mapM_pure sigma s).
  2:{ intros E HE. apply in_map_iff in HE. destruct HE as (i & <- & Hi). apply in_seq in Hi. apply Hs; lia. }
  cbn [bind]. rewrite np_sqrt_ok by nra. cbn [bind].
  assert (0 < sqrt (2 * PI * mu)) by (apply sqrt_lt_R0; nra).
  rewrite np_div_ok by lra. cbn [bind]. assert (HkT : 0 < T * keV_J u) by nra.
  rewrite np_pow_pos by exact HkT. cbn [bind]. rewrite np_div_ok by (apply Rgt_not_eq, exp_pos). cbn [bind].
  rewrite factor_eq by assumption.
  rewrite !map_map, combine_map.
  rewrite (mapM_pure _ (fun st => maxwell_integrand mu (T * keV_J u) (fst st) (snd st))).
  - cbn [bind]. rewrite map_map. cbn [fst snd]. now rewrite trapezoid_sum.
  - intros st _. rewrite np_div_ok by lra. cbn [bind]. f_equal. unfold maxwell_integrand.
    replace (- snd st / (T * keV_J u)) with (- (snd st / (T * keV_J u))) by (field; lra). ring.
Qed.
Lemma xs_rule_pos u mu s T : 0 < mu -> 0 < keV_J u -> 0 < T -> (forall i, (i < 1000)%nat -> 0 < s (log_node i)) ->
  0 < trapezoid_rule 1000 (fun i => log_node i * keV_J u)
     (fun i => maxwell_integrand mu (T * keV_J u) (s (log_node i)) (log_node i * keV_J u)).
Proof.
  intros Hm Hk HT Hs. unfold trapezoid_rule. apply sum_upto_pos; [lia|]. intros i Hi.
  assert (P : forall i, (i < 1000)%nat -> 0 < maxwell_integrand mu (T * keV_J u) (s (log_node i)) (log_node i * keV_J u)).
  { intros j Hj. unfold maxwell_integrand. pose proof PI_RGT_0. assert (0 < T * keV_J u) by nra.
    apply Rmult_lt_0_compat.
    - apply Rdiv_lt_0_compat; [apply sqrt_lt_R0, Rdiv_lt_0_compat; nra|]. apply Rmult_lt_0_compat; [assumption|now apply sqrt_lt_R0].
    - apply Rmult_lt_0_compat; [|apply exp_pos]. apply Rmult_lt_0_compat; [now apply Hs|].
      destruct (log_node_range j Hj). nra. }
  assert (log_node i < log_node (S i)) by (apply log_node_lt; lia).
  pose proof (P i ltac:(lia)). pose proof (P (S i) ltac:(lia)).
  assert (0 < log_node (S i) * keV_J u - log_node i * keV_J u) by nra. unfold Rdiv. nra.
Qed.

Lemma xs_point_nonpos u mu sigma s T : 0 < mu -> 0 < keV_J u -> T <= 0 -> mapM sigma t_grid_kev = Ok s ->
  xs_point u mu sigma T = NonFinite.
Proof.
  intros Hm Hk HT Hs. unfold xs_point. rewrite Hs. cbn [bind]. pose proof PI_RGT_0 as HP.
  rewrite np_sqrt_ok by nra. cbn [bind]. assert (0 < sqrt (2 * PI * mu)) by (apply sqrt_lt_R0; nra).
  rewrite np_div_ok by lra. cbn [bind]. unfold np_pow. destruct (Rltb_spec 0 (T * keV_J u)); [nra|].
  destruct (Reqb_spec (T * keV_J u) 0) as [E|E]; [|reflexivity].
  destruct (Rltb_spec 0 1.5); [|lra]. cbn [bind]. unfold np_div at 1. rewrite Reqb_refl. reflexivity.
Qed.

Lemma covers_fun sigma : covers sigma -> exists s : R -> R, forall E, 1 <= E <= 1000 -> sigma E = Ok (s E) /\ 0 < s E.
Proof.
  intro C. exists (fun E => match sigma E with Ok v => v | _ => 0 end). intros E HE.
  destruct (C E HE) as (v & -> & P). auto.
Qed.
Lemma covers_grid sigma s : (forall E, 1 <= E <= 1000 -> sigma E = Ok (s E) /\ 0 < s E) ->
  mapM sigma t_grid_kev = Ok (map s t_grid_kev).
Proof.
  intro H. apply mapM_pure. intros E HE. rewrite grid_eq in HE. apply in_map_iff in HE. destruct HE as (i & <- & Hi).
  apply in_seq in Hi. apply H, log_node_range. lia.
Qed.

Definition tame {A} (x : res A) : Prop := (exists b, x = Ok b) \/ x = NonFinite.
Lemma tame_bind {A B} (x : res A) (f : A -> res B) : tame x -> (forall a, tame (f a)) -> tame (bind x f).
Proof. intros [[a ->]| ->] H; cbn [bind]; [apply H|now right]. Qed.
Lemma tame_div x y : tame (np_div x y). Proof. unfold np_div; destruct (Reqb y 0); [now right|left; eauto]. Qed.
Lemma tame_sqrt x : tame (np_sqrt x). Proof. unfold np_sqrt; destruct (Rltb x 0); [now right|left; eauto]. Qed.
Lemma tame_pow x y : tame (np_pow x y).
Proof. unfold np_pow; destruct (Rltb 0 x), (Reqb x 0), (Rltb 0 y), (Reqb y 0); (now right) || (left; eauto). Qed.
Lemma bh_point_tame d T : tame (bh_point d T).
Proof.
  unfold bh_point. destruct (Rltb 0 T); [|left; eauto].
  repeat (apply tame_bind; [apply tame_div || apply tame_sqrt || apply tame_pow|intro]). left; eauto.
Qed.
Lemma mapM_NonFinite {A B} (f : A -> res B) l :
  (forall a, In a l -> (exists b, f a = Ok b) \/ f a = NonFinite) -> (exists a, In a l /\ f a = NonFinite) -> mapM f l = NonFinite.
Proof.
  induction l as [|x l IH]; intros H (a & Ha & Ea); [contradiction|]. cbn [mapM].
  destruct (H x (or_introl eq_refl)) as [[b Eb]|Eb]; rewrite Eb; cbn [bind]; [|reflexivity].
  destruct Ha as [->|Ha]; [congruence|]. rewrite IH; [reflexivity| |eauto]. intros; apply H; now right.
Qed.
Lemma mapM_ok_or_nonfinite {A B} (f : A -> res B) l :
  (forall a, In a l -> (exists b, f a = Ok b) \/ f a = NonFinite) -> (exists bs, mapM f l = Ok bs) \/ mapM f l = NonFinite.
Proof.
  induction l as [|x l IH]; intro H; cbn [mapM]; [left; eauto|].
  destruct (H x (or_introl eq_refl)) as [[b Eb]|Eb]; rewrite Eb; cbn [bind]; [|right; reflexivity].
  destruct IH as [[bs E]|E]; [intros; apply H; now right|rewrite E; left; cbn; eauto|rewrite E; right; reflexivity].
Qed.

(** ** reactivity with the cross-section method *)
Definition xs_value (u : units) (mu : R) (s : R -> R) (T : R) : R :=
  trapezoid_rule 1000 (fun i => log_node i * keV_J u)
     (fun i => maxwell_integrand mu (T * keV_J u) (s (log_node i)) (log_node i * keV_J u)).
Lemma from_xs_ok u xs s temps : 0 < keV_J u -> 0 < reduced_mass xs ->
  (forall E, 1 <= E <= 1000 -> interp1d_call (xs_tab xs) E = Ok (s E) /\ 0 < s E) ->
  (forall T, In T temps -> 0 < T) ->
  reactivity_from_xs u temps xs = Ok (map (xs_value u (reduced_mass xs) s) temps) /\
  (forall T, In T temps -> 0 < xs_value u (reduced_mass xs) s T).
Proof.
  intros Hk Hm Hs HT. unfold reactivity_from_xs. rewrite (covers_grid _ s Hs). cbn [bind]. split.
  - apply mapM_pure. intros T HTi. apply xs_point_ok; auto. intros i Hi. now apply Hs, log_node_range.
  - intros T HTi. apply xs_rule_pos; auto. intros i Hi. now apply Hs, log_node_range.
Qed.
Lemma from_xs_any u xs temps : 0 < keV_J u -> 0 < reduced_mass xs -> covers (interp1d_call (xs_tab xs)) ->
  ((exists v, reactivity_from_xs u temps xs = Ok v) \/ reactivity_from_xs u temps xs = NonFinite) /\
  ((exists T, In T temps /\ T <= 0) -> reactivity_from_xs u temps xs = NonFinite).
Proof.
  intros Hk Hm C. destruct (covers_fun _ C) as [s Hs]. unfold reactivity_from_xs.
  rewrite (covers_grid _ s Hs). cbn [bind].
  assert (H : forall a, In a temps -> (exists b, xs_point u (reduced_mass xs) (interp1d_call (xs_tab xs)) a = Ok b) \/
     xs_point u (reduced_mass xs) (interp1d_call (xs_tab xs)) a = NonFinite).
  { intros T _. destruct (Rlt_le_dec 0 T) as [P|P].
    - left. eexists. apply (xs_point_ok u _ _ s); auto. intros i Hi. now apply Hs, log_node_range.
    - right. eapply xs_point_nonpos; eauto. apply (covers_grid _ s Hs). }
  split; [now apply mapM_ok_or_nonfinite|]. intros (T & HT & P). apply mapM_NonFinite; [exact H|].
  exists T; split; [exact HT|]. eapply xs_point_nonpos; eauto. apply (covers_grid _ s Hs).
Qed.

(** The file of each reaction and its molar masses. *)
Definition file (r : reaction) : list line :=
  match r with TT => lines_TT | DT => lines_DT | DDp => lines_DDp | DDn => lines_DDn | DHe3 => lines_DHe3 end.
Definition collider (m : masses) (r : reaction) : R := match r with TT => mT m | _ => mD m end.
Definition target (m : masses) (r : reaction) : R := match r with TT | DT => mT m | DHe3 => mHe3 m | _ => mD m end.
Lemma cross_section_eq m u r : cross_section m u r = make_xs u (file r) (collider m r) (target m r).
Proof. destruct r; reflexivity. Qed.
Lemma genfromtxt_file r : genfromtxt (file r) 2 = Ok (removelast (rows_of (file r))).
Proof. destruct r; vm_compute; reflexivity. Qed.
Lemma file_rows_ok r : file_ok (removelast (rows_of (file r))) = true.
Proof. destruct r; vm_compute; reflexivity. Qed.
Lemma cross_section_full m u r : physical_masses m -> 0 < amu_kg u ->
  exists xs s, cross_section m u r = Ok xs /\
    reduced_mass xs = collider m r * target m r / (collider m r + target m r) * amu_kg u /\ 0 < reduced_mass xs /\
    xs_tab xs = map (scale_row (target m r / (collider m r + target m r))) (removelast (rows_of (file r))) /\
    (forall E, 1 <= E <= 1000 -> interp1d_call (xs_tab xs) E = Ok (s E) /\ 0 < s E).
Proof.
  intros (HD & HT & HH) Hu. rewrite cross_section_eq.
  assert (H1 : 1.9 < collider m r < 3.2) by (destruct r; cbn [collider]; lra).
  assert (H2 : 1.9 < target m r < 3.2) by (destruct r; cbn [target]; lra).
  destruct (make_xs_ok u (file r) _ (collider m r) (target m r) (genfromtxt_file r) (file_rows_ok r) H1 H2 Hu) as (xs & E & M & P & Tb & C).
  destruct (covers_fun _ C) as [s Hs]. exists xs, s. auto.
Qed.
Lemma cross_section_ok m u r : physical_masses m -> 0 < amu_kg u ->
  exists xs, cross_section m u r = Ok xs /\ 0 < reduced_mass xs /\ covers (interp1d_call (xs_tab xs)).
Proof.
  intros Hm Hu. destruct (cross_section_full m u r Hm Hu) as (xs & s & E & _ & P & _ & Hs).
  exists xs. split; [exact E|]. split; [exact P|]. intros E0 HE. exists (s E0). now apply Hs.
Qed.
