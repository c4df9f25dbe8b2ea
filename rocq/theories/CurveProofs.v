(** Lemmas for C96: polygons drawn through points of a smooth closed curve. *)
From Coq Require Import Reals Lra Lia ZArith List Bool.
From Coquelicot Require Import Coquelicot.
From Verif Require Import Base Geometry SpecGeometry GeometryProofs SpecFlux FluxProofs DShape SpecCurve.
Import ListNotations.
Open Scope R_scope.

Ltac rq := match goal with |- ?a = ?b => change (@eq R a b) end.
Lemma ex_int (f : R -> R) a b : (forall t, continuous f t) -> ex_RInt f a b.
Proof. intro H. apply (ex_RInt_continuous (V := R_CompleteNormedModule)). intros; apply H. Qed.
Lemma int_plus (f g : R -> R) a b : (forall t, continuous f t) -> (forall t, continuous g t) -> RInt (fun t => f t + g t) a b = RInt f a b + RInt g a b.
Proof. intros Hf Hg. apply is_RInt_unique. apply (is_RInt_plus (V := R_NormedModule) f g a b); apply (RInt_correct (V := R_CompleteNormedModule)); now apply ex_int. Qed.
Lemma int_minus (f g : R -> R) a b : (forall t, continuous f t) -> (forall t, continuous g t) -> RInt (fun t => f t - g t) a b = RInt f a b - RInt g a b.
Proof. intros Hf Hg. apply is_RInt_unique. apply (is_RInt_minus (V := R_NormedModule) f g a b); apply (RInt_correct (V := R_CompleteNormedModule)); now apply ex_int. Qed.
Lemma int_scal (f : R -> R) k a b : (forall t, continuous f t) -> RInt (fun t => k * f t) a b = k * RInt f a b.
Proof. intros Hf. apply is_RInt_unique. apply (is_RInt_scal (V := R_NormedModule) f a b k). apply (RInt_correct (V := R_CompleteNormedModule)); now apply ex_int. Qed.
Lemma int_const (k : R) a b : RInt (fun _ => k) a b = (b - a) * k.
Proof. apply is_RInt_unique. exact (is_RInt_const (V := R_NormedModule) a b k). Qed.
Lemma int_split (f : R -> R) a b c : (forall t, continuous f t) -> RInt f a c = RInt f a b + RInt f b c.
Proof. intro H. rewrite <- (RInt_Chasles f a b c) by now apply ex_int. reflexivity. Qed.
Lemma int_abs (f : R -> R) a b B : a <= b -> (forall t, continuous f t) -> (forall t, a <= t <= b -> Rabs (f t) <= B) -> Rabs (RInt f a b) <= (b - a) * B.
Proof. intros L H K. apply abs_RInt_le_const; [exact L|now apply ex_int|exact K]. Qed.
Lemma int_derive (f f' : R -> R) a b : (forall t, is_derive f t (f' t)) -> (forall t, continuous f' t) -> RInt f' a b = f b - f a.
Proof. intros H C. apply is_RInt_unique. apply (is_RInt_derive (V := R_CompleteNormedModule) f f' a b); intros; [apply H|apply C]. Qed.
Lemma lipschitz_cont (f : R -> R) M t : (forall s t, Rabs (f t - f s) <= M * Rabs (t - s)) -> continuous f t.
Proof.
  intro H. apply continuity_pt_filterlim. intros eps He.
  assert (P : 0 < Rabs M + 1) by (pose proof (Rabs_pos M); lra). exists (eps / (Rabs M + 1)). split; [apply Rdiv_lt_0_compat; lra|].
  intros y [_ Hy]. unfold R_dist in *. cbn in *. unfold R_dist in *. eapply Rle_lt_trans; [apply (H t y)|].
  pose proof (Rabs_pos (y - t)). pose proof (Rle_abs M).
  apply Rle_lt_trans with ((Rabs M + 1) * Rabs (y - t)); [nra|]. apply (Rmult_lt_compat_l (Rabs M + 1)) in Hy; [|exact P].
  replace ((Rabs M + 1) * (eps / (Rabs M + 1))) with eps in Hy by (field; lra). exact Hy.
Qed.
Lemma mvt (f f' : R -> R) a b : (forall t, is_derive f t (f' t)) -> a <= b -> exists c, a <= c <= b /\ f b - f a = f' c * (b - a).
Proof.
  intros H L. destruct (MVT_gen f a b f') as (c & Hc & E).
  - intros; apply H.
  - intros t _. apply derivable_continuous_pt. exists (f' t). apply is_derive_Reals. apply H.
  - rewrite Rmin_left, Rmax_right in Hc by lra. now exists c.
Qed.
Lemma derive_cont (f f' : R -> R) t : (forall t, is_derive f t (f' t)) -> continuous f t.
Proof. intro H. apply (ex_derive_continuous (V := R_NormedModule) f t). exists (f' t). apply H. Qed.

(** ** One panel *)
Section Panel.
  Variables (x x' z z' : R -> R) (Lx Mx Lz Mz : R).
  Hypothesis Dx : forall t, is_derive x t (x' t).
  Hypothesis Dz : forall t, is_derive z t (z' t).
  Hypothesis Bx : forall t, Rabs (x' t) <= Lx.
  Hypothesis Bz : forall t, Rabs (z' t) <= Lz.
  Hypothesis Cx : forall s t, Rabs (x' t - x' s) <= Mx * Rabs (t - s).
  Hypothesis Cz : forall s t, Rabs (z' t - z' s) <= Mz * Rabs (t - s).
  Lemma Lx0 : 0 <= Lx. Proof. pose proof (Bx 0). pose proof (Rabs_pos (x' 0)). lra. Qed.
  Lemma Lz0 : 0 <= Lz. Proof. pose proof (Bz 0). pose proof (Rabs_pos (z' 0)). lra. Qed.
  Lemma Mx0 : 0 <= Mx. Proof. pose proof (Cx 0 1). pose proof (Rabs_pos (x' 1 - x' 0)). replace (1 - 0) with 1 in * by ring. rewrite Rabs_R1 in *. lra. Qed.
  Lemma Mz0 : 0 <= Mz. Proof. pose proof (Cz 0 1). pose proof (Rabs_pos (z' 1 - z' 0)). replace (1 - 0) with 1 in * by ring. rewrite Rabs_R1 in *. lra. Qed.
  Lemma cz' t : continuous z' t. Proof. exact (lipschitz_cont z' Mz t Cz). Qed.
  Lemma cx t : continuous x t. Proof. exact (derive_cont x x' t Dx). Qed.

  Variables (u h : R).
  Hypothesis Hh : 0 < h.
  (** The chord. *)
  Definition chord (t : R) : R := x u + (t - u) / h * (x (u + h) - x u).
  Lemma chord_err t : u <= t <= u + h -> Rabs (chord t - x t) <= Mx * h ^ 2 / 4.
  Proof.
    intros [H1 H2]. destruct (mvt x x' u t Dx H1) as (c1 & K1 & E1). destruct (mvt x x' t (u + h) Dx H2) as (c2 & K2 & E2).
    unfold chord. replace (x u + (t - u) / h * (x (u + h) - x u) - x t) with ((t - u) * (u + h - t) / h * (x' c2 - x' c1)).
    2:{ replace (x (u + h) - x u) with (x' c2 * (u + h - t) + x' c1 * (t - u)) by lra.
        replace (x u) with (x t - x' c1 * (t - u)) by lra. field. lra. }
    rewrite Rabs_mult. assert (Q : 0 <= (t - u) * (u + h - t) / h <= h / 4).
    { split; [apply Rle_mult_inv_pos; [nra|lra]|]. apply (Rmult_le_reg_r h); [lra|].
      replace ((t - u) * (u + h - t) / h * h) with ((t - u) * (u + h - t)) by (field; lra). pose proof (pow2_ge_0 (t - u - h / 2)). nra. }
    rewrite (Rabs_pos_eq ((t - u) * (u + h - t) / h)) by lra.
    pose proof (Cx c1 c2) as C. rewrite (Rabs_pos_eq (c2 - c1)) in C by lra. pose proof Mx0. pose proof (Rabs_pos (x' c2 - x' c1)).
    assert (Rabs (x' c2 - x' c1) <= Mx * h) by (eapply Rle_trans; [exact C|]; apply Rmult_le_compat_l; lra).
    apply Rle_trans with (h / 4 * (Mx * h)); [apply Rmult_le_compat; lra|]. lra.
  Qed.
  Lemma step_x : Rabs (x (u + h) - x u) <= Lx * h.
  Proof.
    destruct (mvt x x' u (u + h) Dx ltac:(lra)) as (c & K & E). rewrite E, Rabs_mult, (Rabs_pos_eq (u + h - u)) by lra.
    replace (u + h - u) with h by ring. apply Rmult_le_compat_r; [lra|apply Bx].
  Qed.
  Lemma chord_cont t : continuous chord t.
  Proof. apply (ex_derive_continuous (V := R_NormedModule) chord t). unfold chord. auto_derive. trivial. Qed.

  (** The integral of G(x) dz along the chord (mean value m of G on it times the rise of z) against the curve. *)
  Lemma panel (G : R -> R) m K1 K2 : (forall y, continuous G y) ->
    RInt (fun t => G (chord t)) u (u + h) = h * m ->
    (forall t, u <= t <= u + h -> Rabs (m - G (chord t)) <= K1) ->
    (forall t, u <= t <= u + h -> Rabs (G (chord t) - G (x t)) <= K2) ->
    Rabs (m * (z (u + h) - z u) - RInt (fun t => G (x t) * z' t) u (u + h)) <= h * (K1 * (Mz * h / 2) + K2 * Lz).
  Proof.
    intros HG HI H1 H2.
    assert (CL : forall t, continuous (fun t => G (chord t)) t) by (intro t; apply (continuous_comp chord G); [apply chord_cont|apply HG]).
    assert (CX : forall t, continuous (fun t => G (x t)) t) by (intro t; apply (continuous_comp x G); [apply cx|apply HG]).
    assert (CM : forall (f g : R -> R), (forall t, continuous f t) -> (forall t, continuous g t) -> forall t, continuous (fun t => f t * g t) t)
      by (intros f g Hf Hg t; apply (continuous_mult f g); auto).
    assert (CS : forall (f g : R -> R), (forall t, continuous f t) -> (forall t, continuous g t) -> forall t, continuous (fun t => f t - g t) t)
      by (intros f g Hf Hg t; apply (continuous_minus f g); auto).
    assert (CK : forall k t : R, continuous (fun _ : R => k) t) by (intros; apply continuous_const).
    set (w := z' (u + h / 2)).
    assert (E : m * (z (u + h) - z u) - RInt (fun t => G (x t) * z' t) u (u + h) =
      RInt (fun t => (m - G (chord t)) * (z' t - w)) u (u + h) + RInt (fun t => (G (chord t) - G (x t)) * z' t) u (u + h)).
    { rewrite <- (int_derive z z' u (u + h) Dz cz'). rewrite <- (int_scal z' m u (u + h) cz').
      rewrite <- int_minus; [|apply CM; [intro; apply CK|apply cz']|apply CM; [apply CX|apply cz']].
      assert (W : RInt (fun t => w * (m - G (chord t))) u (u + h) = 0).
      { rewrite int_scal by (apply CS; [intro; apply CK|apply CL]). rewrite int_minus by (first [apply CL|intro; apply CK]).
        rewrite int_const, HI. rq. ring. }
      rewrite <- (Rplus_0_r (RInt _ u (u + h) + RInt _ u (u + h))), <- W.
      rewrite <- int_plus by (apply CM; [apply CS|]; first [apply CL|apply CX|apply cz'|apply CS; [apply cz'|intro; apply CK]|intro; apply CK]).
      rewrite <- int_plus.
      2:{ intro t. apply (continuous_plus (fun t => (m - G (chord t)) * (z' t - w)) (fun t => (G (chord t) - G (x t)) * z' t));
          apply CM; try apply CS; first [apply CL|apply CX|apply cz'|intro; apply CK]. }
      2:{ apply CM; [intro; apply CK|apply CS; [intro; apply CK|apply CL]]. }
      apply RInt_ext. intros t _. rq. ring. }
    rewrite E. eapply Rle_trans; [apply Rabs_triang|]. rewrite Rmult_plus_distr_l. apply Rplus_le_compat.
    - eapply Rle_trans; [apply (int_abs _ u (u + h) (K1 * (Mz * h / 2))); [lra| |]|].
      + apply CM; apply CS; first [apply CL|apply cz'|intro; apply CK].
      + intros t Ht. rewrite Rabs_mult. apply Rmult_le_compat; [apply Rabs_pos|apply Rabs_pos|now apply H1|].
        eapply Rle_trans; [apply Cz|]. unfold Rdiv. rewrite Rmult_assoc. apply Rmult_le_compat_l; [apply Mz0|].
        apply Rabs_le. lra.
      + apply Req_le. ring.
    - eapply Rle_trans; [apply (int_abs _ u (u + h) (K2 * Lz)); [lra| |]|].
      + apply CM; [apply CS|]; first [apply CL|apply CX|apply cz'].
      + intros t Ht. rewrite Rabs_mult. apply Rmult_le_compat; [apply Rabs_pos|apply Rabs_pos|now apply H2|apply Bz].
      + apply Req_le. ring.
  Qed.

  Lemma panel_area : Rabs ((x u + x (u + h)) / 2 * (z (u + h) - z u) - RInt (fun t => x t * z' t) u (u + h)) <= h ^ 3 * (Lx * Mz + Mx * Lz) / 4.
  Proof.
    eapply Rle_trans; [apply (panel (fun y => y) _ (Lx * h / 2) (Mx * h ^ 2 / 4))|].
    - intro; apply continuous_id.
    - rewrite (int_derive (fun t => x u * t + (t - u) ^ 2 / (2 * h) * (x (u + h) - x u)) chord); [rq; field; lra| |apply chord_cont].
      intro t. unfold chord. auto_derive; [trivial|field; lra].
    - intros t Ht. unfold chord. replace ((x u + x (u + h)) / 2 - (x u + (t - u) / h * (x (u + h) - x u))) with ((1 / 2 - (t - u) / h) * (x (u + h) - x u)) by (field; lra).
      rewrite Rabs_mult. replace (Lx * h / 2) with (/ 2 * (Lx * h)) by field. apply Rmult_le_compat; [apply Rabs_pos|apply Rabs_pos| |apply step_x].
      assert (0 <= (t - u) / h <= 1). { split; [apply Rle_mult_inv_pos; lra|]. apply (Rmult_le_reg_r h); [lra|]. unfold Rdiv. rewrite Rmult_assoc, Rinv_l; lra. }
      apply Rabs_le. lra.
    - intros. now apply chord_err.
    - apply Req_le. field.
  Qed.
  Lemma chord_coord t : u <= t <= u + h -> 0 <= (t - u) / h <= 1.
  Proof. intro Ht. split; [apply Rle_mult_inv_pos; lra|]. apply (Rmult_le_reg_r h); [lra|]. unfold Rdiv. rewrite Rmult_assoc, Rinv_l; lra. Qed.
  Lemma panel_volume X : (forall t, Rabs (x t) <= X) ->
    Rabs ((x u * x u + x u * x (u + h) + x (u + h) * x (u + h)) / 3 * (z (u + h) - z u) - RInt (fun t => x t ^ 2 * z' t) u (u + h)) <= h ^ 3 * (X * (Lx * Mz + Mx * Lz)) / 2.
  Proof.
    intro HX. eapply Rle_trans; [apply (panel (fun y => y ^ 2) _ (X * (Lx * h)) (Mx * h ^ 2 / 4 * (2 * X)))|].
    - intro y. apply (ex_derive_continuous (V := R_NormedModule) (fun y => y ^ 2) y). auto_derive. trivial.
    - rewrite (int_derive (fun t => x u ^ 2 * t + x u * (x (u + h) - x u) * (t - u) ^ 2 / h + (x (u + h) - x u) ^ 2 * (t - u) ^ 3 / (3 * h ^ 2)) (fun t => chord t ^ 2)).
      + rq. field; lra.
      + intro t. unfold chord. auto_derive; [trivial|field; lra].
      + intro t. apply (ex_derive_continuous (V := R_NormedModule) (fun t => chord t ^ 2) t). unfold chord. auto_derive. trivial.
    - intros t Ht. unfold chord. pose proof (chord_coord t Ht) as Q. set (l := (t - u) / h) in *. clearbody l.
      replace ((x u * x u + x u * x (u + h) + x (u + h) * x (u + h)) / 3 - (x u + l * (x (u + h) - x u)) ^ 2)
        with ((x u * (2 / 3 - 2 * l + l * l) + x (u + h) * (1 / 3 - l * l)) * (x (u + h) - x u)) by field.
      rewrite Rabs_mult. apply Rmult_le_compat; [apply Rabs_pos|apply Rabs_pos| |apply step_x].
      eapply Rle_trans; [apply Rabs_triang|]. rewrite !Rabs_mult. pose proof (HX u). pose proof (HX (u + h)).
      assert (P : Rabs (2 / 3 - 2 * l + l * l) + Rabs (1 / 3 - l * l) <= 1) by (unfold Rabs; repeat destruct Rcase_abs; nra).
      pose proof (Rabs_pos (2 / 3 - 2 * l + l * l)). pose proof (Rabs_pos (1 / 3 - l * l)).
      apply Rle_trans with (X * (Rabs (2 / 3 - 2 * l + l * l) + Rabs (1 / 3 - l * l))).
      + rewrite Rmult_plus_distr_l. apply Rplus_le_compat; apply Rmult_le_compat_r; assumption.
      + pose proof (Rabs_pos (x u)). nra.
    - intros t Ht. replace (chord t ^ 2 - x t ^ 2) with ((chord t - x t) * (chord t + x t)) by ring. rewrite Rabs_mult.
      apply Rmult_le_compat; [apply Rabs_pos|apply Rabs_pos|now apply chord_err|]. eapply Rle_trans; [apply Rabs_triang|]. pose proof (HX t).
      enough (Rabs (chord t) <= X) by lra. unfold chord. pose proof (chord_coord t Ht) as Q. set (l := (t - u) / h) in *. clearbody l.
      pose proof (proj1 (Rabs_le_between _ _) (HX u)). pose proof (proj1 (Rabs_le_between _ _) (HX (u + h))).
      replace (x u + l * (x (u + h) - x u)) with ((1 - l) * x u + l * x (u + h)) by ring. apply Rabs_le. nra.
    - apply Req_le. field.
  Qed.
End Panel.

(** ** The whole curve *)
Lemma angle_S n k : (2 <= n)%nat -> angle n (S k) = angle n k + 2 * PI / INR (n - 1).
Proof. intro H. unfold angle. rewrite S_INR. field. apply not_0_INR. lia. Qed.
Lemma panels (c : R -> R * R) (f : R * R -> R * R -> R) (g : R -> R) n e : (2 <= n)%nat -> (forall t, continuous g t) ->
  (forall u, Rabs (f (c u) (c (u + 2 * PI / INR (n - 1))) - RInt g u (u + 2 * PI / INR (n - 1))) <= e) ->
  forall m k, Rabs (edge_sum f (map (fun k => c (angle n k)) (seq k (S m))) - RInt g (angle n k) (angle n (k + m))) <= INR m * e.
Proof.
  intros Hn Hg H m. induction m as [|m IH]; intro k.
  - cbn [seq map edge_sum]. rewrite Nat.add_0_r, RInt_point. change zero with 0. rewrite Rminus_0_r, Rabs_R0. cbn. lra.
  - change (seq k (S (S m))) with (k :: S k :: seq (S (S k)) m). cbn [map]. rewrite edge_sum_cons. specialize (IH (S k)).
    change (seq (S k) (S m)) with (S k :: seq (S (S k)) m) in IH. cbn [map] in IH.
    rewrite (int_split g (angle n k) (angle n (S k)) (angle n (k + S m)) Hg).
    replace (k + S m)%nat with (S k + m)%nat by lia. specialize (H (angle n k)). rewrite <- (angle_S n k Hn) in H. rewrite S_INR.
    match goal with |- Rabs (?a + ?b - (?i + ?j)) <= _ => replace (a + b - (i + j)) with ((a - i) + (b - j)) by ring end.
    eapply Rle_trans; [apply Rabs_triang|]. lra.
Qed.

(** A curve with bounded second derivatives is smooth. *)
Lemma smooth_of (c : R -> R * R) x1 x2 z1 z2 Lx Mx Lz Mz : c (2 * PI) = c 0 ->
  (forall t, is_derive (fun s => fst (c s)) t (x1 t)) -> (forall t, is_derive x1 t (x2 t)) ->
  (forall t, is_derive (fun s => snd (c s)) t (z1 t)) -> (forall t, is_derive z1 t (z2 t)) ->
  (forall t, Rabs (x1 t) <= Lx) -> (forall t, Rabs (x2 t) <= Mx) -> (forall t, Rabs (z1 t) <= Lz) -> (forall t, Rabs (z2 t) <= Mz) ->
  smooth_curve c Lx Mx Lz Mz.
Proof.
  intros E X1 X2 Z1 Z2 B1 B2 B3 B4. split; [exact E|]. exists x1, z1. split; [auto|]. split; [auto|].
  assert (K : forall f f' M, (forall t, is_derive f t (f' t)) -> (forall t, Rabs (f' t) <= M) -> forall s t, Rabs (f t - f s) <= M * Rabs (t - s)).
  { intros f f' M D B s t. destruct (Rle_dec s t) as [L|L].
    - destruct (mvt f f' s t D L) as (y & _ & Ey). rewrite Ey, Rabs_mult. apply Rmult_le_compat_r; [apply Rabs_pos|apply B].
    - destruct (mvt f f' t s D ltac:(lra)) as (y & _ & Ey). rewrite (Rabs_minus_sym (f t)), (Rabs_minus_sym t), Ey, Rabs_mult. apply Rmult_le_compat_r; [apply Rabs_pos|apply B]. }
  intros s t. split; [exact (K x1 x2 Mx X2 B2 s t)|exact (K z1 z2 Mz Z2 B4 s t)].
Qed.

(** Sums over the polygon against integrals over the curve. *)
Lemma polygon_sums (c : R -> R * R) Lx Mx Lz Mz n : smooth_curve c Lx Mx Lz Mz -> (2 <= n)%nat ->
  let l := map (fun k => c (angle n k)) (seq 0 n) in
  let E := (Lx * Mz + Mx * Lz) * (2 * PI / INR (n - 1)) ^ 2 in
  Rabs (edge_sum crs l / 2 - enclosed_area c) <= PI / 2 * E /\
  forall X, (forall t, Rabs (fst (c t)) <= X) -> Rabs (PI / 3 * edge_sum (mom fst) l - enclosed_volume c) <= PI ^ 2 * (X * E).
Proof.
  intros (Ec & x' & z' & D & B & C) Hn l E. set (h := 2 * PI / INR (n - 1)) in *. assert (N : 0 < INR (n - 1)) by (apply lt_0_INR; lia).
  assert (Hh : 0 < h) by (apply Rdiv_lt_0_compat; [pose proof PI_RGT_0; lra|exact N]).
  assert (Nh : INR (n - 1) * h = 2 * PI) by (unfold h; field; lra).
  assert (Lp : loop l) by (apply (closed_turn c n); [lia|exact Ec]).
  assert (Dz : forall t, Derive (fun s => snd (c s)) t = z' t) by (intro t; apply is_derive_unique, D).
  assert (Cz' : forall t, continuous z' t) by (intro t; apply (lipschitz_cont z' Mz); apply C).
  assert (Cx : forall t, continuous (fun s => fst (c s)) t) by (intro t; apply (derive_cont _ x'); intro; apply D).
  assert (A0 : angle n 0 = 0) by apply angle_0. assert (A1 : angle n (n - 1) = 2 * PI) by now apply angle_last.
  split.
  - rewrite <- (x_dz l Lp). unfold enclosed_area. rewrite (RInt_ext _ (fun t => fst (c t) * z' t)) by (intros; now rewrite Dz).
    pose proof (panels c (fun p q => (fst p + fst q) / 2 * (snd q - snd p)) (fun t => fst (c t) * z' t) n (h ^ 3 * (Lx * Mz + Mx * Lz) / 4) Hn) as P.
    assert (P1 : forall t, continuous (fun t => fst (c t) * z' t) t) by (intro t; apply (continuous_mult (fun t => fst (c t)) z'); auto).
    assert (P2 : forall u, Rabs ((fst (c u) + fst (c (u + h))) / 2 * (snd (c (u + h)) - snd (c u)) - RInt (fun t => fst (c t) * z' t) u (u + h)) <= h ^ 3 * (Lx * Mz + Mx * Lz) / 4).
    { intro u. apply (panel_area (fun t => fst (c t)) x' (fun t => snd (c t)) z' Lx Mx Lz Mz (fun t => proj1 (D t)) (fun t => proj2 (D t)) (fun t => proj1 (B t)) (fun t => proj2 (B t)) (fun s t => proj1 (C s t)) (fun s t => proj2 (C s t)) u h Hh). }
    specialize (P P1 P2 (n - 1)%nat 0%nat). replace (S (n - 1)) with n in P by lia. cbn [Nat.add] in P. rewrite A0, A1 in P. fold l in P.
    replace (edge_sum (fun p q => (fst p + fst q) * (snd q - snd p)) l / 2) with (edge_sum (fun p q => (fst p + fst q) / 2 * (snd q - snd p)) l).
    + eapply Rle_trans; [exact P|]. apply Req_le. unfold E. replace (INR (n - 1) * (h ^ 3 * (Lx * Mz + Mx * Lz) / 4)) with ((INR (n - 1) * h) * (h ^ 2 * (Lx * Mz + Mx * Lz) / 4)) by field. rewrite Nh. field.
    + rewrite (edge_sum_ext _ (fun p q => / 2 * ((fst p + fst q) * (snd q - snd p)))) by (intros; field). rewrite edge_sum_scale. field.
  - intros X HX. rewrite <- (x2_dz l Lp). unfold enclosed_volume. rewrite (RInt_ext _ (fun t => fst (c t) ^ 2 * z' t)) by (intros; now rewrite Dz).
    pose proof (panels c (fun p q => (fst p * fst p + fst p * fst q + fst q * fst q) / 3 * (snd q - snd p)) (fun t => fst (c t) ^ 2 * z' t) n (h ^ 3 * (X * (Lx * Mz + Mx * Lz)) / 2) Hn) as P.
    assert (P1 : forall t, continuous (fun t => fst (c t) ^ 2 * z' t) t).
    { intro t. apply (continuous_mult (fun t => fst (c t) ^ 2) z'); auto. apply (continuous_comp (fun t => fst (c t)) (fun y => y ^ 2)); auto.
      apply (ex_derive_continuous (V := R_NormedModule) (fun y => y ^ 2)). auto_derive. trivial. }
    assert (P2 : forall u, Rabs ((fst (c u) * fst (c u) + fst (c u) * fst (c (u + h)) + fst (c (u + h)) * fst (c (u + h))) / 3 * (snd (c (u + h)) - snd (c u))
       - RInt (fun t => fst (c t) ^ 2 * z' t) u (u + h)) <= h ^ 3 * (X * (Lx * Mz + Mx * Lz)) / 2).
    { intro u. apply (panel_volume (fun t => fst (c t)) x' (fun t => snd (c t)) z' Lx Mx Lz Mz (fun t => proj1 (D t)) (fun t => proj2 (D t)) (fun t => proj1 (B t)) (fun t => proj2 (B t)) (fun s t => proj1 (C s t)) (fun s t => proj2 (C s t)) u h Hh X HX). }
    specialize (P P1 P2 (n - 1)%nat 0%nat). replace (S (n - 1)) with n in P by lia. cbn [Nat.add] in P. rewrite A0, A1 in P. fold l in P.
    rewrite (edge_sum_ext _ (fun p q => / 3 * ((fst p * fst p + fst p * fst q + fst q * fst q) * (snd q - snd p)))) in P by (intros; field). rewrite edge_sum_scale in P.
    set (S := edge_sum _ l) in *. set (J := RInt _ 0 (2 * PI)) in *. clearbody S J. pose proof PI_RGT_0.
    replace (PI / 3 * S - PI * J) with (PI * (/ 3 * S - J)) by field. rewrite Rabs_mult, (Rabs_pos_eq PI) by lra.
    eapply Rle_trans; [apply Rmult_le_compat_l; [lra|exact P]|]. apply Req_le. unfold E.
    replace (INR (n - 1) * (h ^ 3 * (X * (Lx * Mz + Mx * Lz)) / 2)) with ((INR (n - 1) * h) * (h ^ 2 * (X * (Lx * Mz + Mx * Lz)) / 2)) by field. rewrite Nh. field.
Qed.

(** ** Integrals over a full turn *)
Lemma turn_zero (f : R -> R) : (forall y, continuous f y) -> RInt (fun t => f (sin t) * cos t) 0 (2 * PI) = 0.
Proof.
  intro H. set (F := fun y => RInt f 0 y).
  assert (D : forall y, is_derive F y (f y)).
  { intro y. apply (is_derive_RInt f F 0 y); [|apply H]. exists (mkposreal 1 Rlt_0_1). intros b _. apply (RInt_correct (V := R_CompleteNormedModule)). now apply ex_int. }
  rewrite (int_derive (fun t => F (sin t)) (fun t => f (sin t) * cos t)).
  - rewrite sin_2PI, sin_0. rq. ring.
  - intro t. replace (f (sin t) * cos t) with (scal (cos t) (f (sin t))) by (unfold scal; cbn; unfold mult; cbn; ring).
    apply (is_derive_comp F sin t); [apply D|]. auto_derive; [trivial|ring].
  - intro t. apply (continuous_mult (fun t => f (sin t)) cos); [apply (continuous_comp sin f); [|apply H]|];
    [apply (ex_derive_continuous (V := R_NormedModule) sin)|apply (ex_derive_continuous (V := R_NormedModule) cos)]; auto_derive; trivial.
Qed.
Ltac derive_continuous := intro; match goal with |- continuous ?f ?t => apply (ex_derive_continuous (V := R_NormedModule) f t); auto_derive; trivial end.
Lemma int_cos : RInt cos 0 (2 * PI) = 0.
Proof. rewrite (int_derive sin cos); [rewrite sin_2PI, sin_0; rq; ring|intro; auto_derive; [trivial|ring]|derive_continuous]. Qed.
Lemma int_cos2 : RInt (fun t => cos t ^ 2) 0 (2 * PI) = PI.
Proof.
  rewrite (int_derive (fun t => t / 2 + sin t * cos t / 2) (fun t => cos t ^ 2)).
  - rewrite sin_2PI, sin_0. rq. field.
  - intro t. auto_derive; [trivial|]. pose proof (sin2_cos2 t) as Q. unfold Rsqr in Q. replace (cos t ^ 2) with ((sin t * sin t + cos t * cos t) / 2 + (cos t * cos t - sin t * sin t) / 2) by field. rewrite Q. field.
  - derive_continuous.
Qed.
Lemma int_sin2cos2 : RInt (fun t => sin t ^ 2 * cos t ^ 2) 0 (2 * PI) = PI / 4.
Proof.
  rewrite (int_derive (fun t => t / 8 - sin t * cos t * (1 - 2 * sin t ^ 2) / 8) (fun t => sin t ^ 2 * cos t ^ 2)).
  - rewrite sin_2PI, sin_0. rq. field.
  - intro t. auto_derive; [trivial|]. pose proof (sin2_cos2 t) as Q. unfold Rsqr in Q. assert (Q' : cos t * cos t = 1 - sin t * sin t) by lra.
    replace (cos t ^ 2) with (cos t * cos t) by ring. rewrite Q'. rq.
    transitivity (1 / 8 - ((cos t * cos t - sin t * sin t) * (1 - 2 * (sin t * sin t)) - 4 * (sin t * sin t) * (cos t * cos t)) / 8); [field|]. rewrite Q'. field.
  - derive_continuous.
Qed.
Lemma int_le (f g : R -> R) a b : a <= b -> (forall t, continuous f t) -> (forall t, continuous g t) -> (forall t, f t <= g t) -> RInt f a b <= RInt g a b.
Proof. intros L Hf Hg H. apply RInt_le; [exact L|now apply ex_int|now apply ex_int|]. intros; apply H. Qed.
Lemma int_ext (f g : R -> R) a b : (forall t, f t = g t) -> RInt f a b = RInt g a b.
Proof. intro H. apply RInt_ext. intros; apply H. Qed.

Lemma cos_ge x : 1 - x ^ 2 / 2 <= cos x.
Proof. destruct (Rle_dec 0 x) as [H|H]; [now apply cos_lower|]. rewrite <- (cos_neg x). replace (x ^ 2) with ((- x) ^ 2) by ring. apply cos_lower. lra. Qed.
Lemma sin_between k y : 0 <= k <= 2 -> -1 <= y <= 1 -> 0 <= y * sin (k * y) <= k * y ^ 2.
Proof.
  assert (W : forall k y, 0 <= k <= 2 -> 0 <= y <= 1 -> 0 <= y * sin (k * y) <= k * y ^ 2).
  { clear. intros k y Hk Hy. assert (P : 2 <= PI) by (pose proof PI2_1; lra). assert (K : 0 <= k * y <= 2) by nra.
    pose proof (sin_ge_0 (k * y) ltac:(lra) ltac:(lra)). assert (sin (k * y) <= k * y) by (destruct (Req_dec (k * y) 0) as [->|N]; [rewrite sin_0; lra|apply Rlt_le, sin_lt_x; lra]).
    split; [apply Rmult_le_pos; lra|]. replace (k * y ^ 2) with (y * (k * y)) by ring. apply Rmult_le_compat_l; lra. }
  intros Hk Hy. destruct (Rle_dec 0 y) as [H|H]; [apply W; lra|]. pose proof (W k (- y) Hk ltac:(lra)) as Q.
  replace (k * - y) with (- (k * y)) in Q by ring. rewrite sin_neg in Q. replace (- y * - sin (k * y)) with (y * sin (k * y)) in Q by ring. replace ((- y) ^ 2) with (y ^ 2) in Q by ring. exact Q.
Qed.

(** The two integrals that give area and volume of a D shape of triangularity d. *)
Lemma d_area_q (d I : R) : I <= PI -> PI * (1 - d ^ 2 / 8) <= I -> exists q, 0 <= q <= 1 /\ I = PI * (1 - q * d ^ 2 / 8).
Proof.
  intros U L. pose proof PI_RGT_0 as P.
  destruct (Req_dec d 0) as [->|N].
  - exists 0. split; [lra|]. replace (PI * (1 - 0 * 0 ^ 2 / 8)) with PI by field. apply Rle_antisym; [exact U|]. eapply Rle_trans; [|exact L]. apply Req_le. field.
  - assert (D : 0 < d ^ 2) by (rewrite <- Rsqr_pow2; now apply Rsqr_pos_lt). exists ((1 - I / PI) * 8 / d ^ 2). split; [split|field; split; [lra|exact N]].
    + apply Rle_mult_inv_pos; [|exact D]. apply Rmult_le_pos; [|lra]. apply (Rmult_le_reg_r PI); [exact P|]. replace ((1 - I / PI) * PI) with (PI - I) by (field; lra). lra.
    + apply (Rmult_le_reg_r (d ^ 2 * PI)); [now apply Rmult_lt_0_compat|]. replace ((1 - I / PI) * 8 / d ^ 2 * (d ^ 2 * PI)) with (8 * (PI - I)) by (field; split; [lra|exact N]). lra.
Qed.
Lemma d_area d : exists q, 0 <= q <= 1 /\ RInt (fun t => cos (t + d * sin t) * cos t) 0 (2 * PI) = PI * (1 - q * d ^ 2 / 8).
Proof.
  assert (E : RInt (fun t => cos (t + d * sin t) * cos t) 0 (2 * PI) = RInt (fun t => cos t ^ 2 * cos (d * sin t)) 0 (2 * PI)).
  { rewrite (int_ext _ (fun t => cos t ^ 2 * cos (d * sin t) - sin t * sin (d * sin t) * cos t)) by (intro t; rewrite cos_plus; ring).
    rewrite int_minus by derive_continuous. assert (Z : RInt (fun t => sin t * sin (d * sin t) * cos t) 0 (2 * PI) = 0) by (apply (turn_zero (fun y => y * sin (d * y))); derive_continuous). rewrite Z. rq. ring. }
  rewrite E. set (I := RInt (fun t => cos t ^ 2 * cos (d * sin t)) 0 (2 * PI)). pose proof PI_RGT_0 as P.
  assert (U : I <= PI).
  { unfold I. apply Rle_trans with (RInt (fun t => cos t ^ 2) 0 (2 * PI)); [|rewrite int_cos2; apply Rle_refl]. apply int_le; [lra|derive_continuous|derive_continuous|]. intro t. pose proof (COS_bound (d * sin t)). pose proof (pow2_ge_0 (cos t)). nra. }
  assert (L : PI * (1 - d ^ 2 / 8) <= I).
  { unfold I. replace (PI * (1 - d ^ 2 / 8)) with (RInt (fun t => cos t ^ 2 - d ^ 2 / 2 * (sin t ^ 2 * cos t ^ 2)) 0 (2 * PI)).
    - apply int_le; [lra|derive_continuous|derive_continuous|]. intro t. pose proof (cos_ge (d * sin t)) as Q. pose proof (pow2_ge_0 (cos t)).
      replace (cos t ^ 2 - d ^ 2 / 2 * (sin t ^ 2 * cos t ^ 2)) with (cos t ^ 2 * (1 - (d * sin t) ^ 2 / 2)) by field. apply Rmult_le_compat_l; assumption.
    - rewrite int_minus by derive_continuous. rewrite int_scal by derive_continuous. rewrite int_cos2, int_sin2cos2. rq. field. }
  exact (d_area_q d I U L).
Qed.
Lemma d_volume d : -1 <= d <= 1 -> exists q, 0 <= q <= 1 /\ RInt (fun t => cos (t + d * sin t) ^ 2 * cos t) 0 (2 * PI) = - (q * (PI * d / 2)).
Proof.
  intro Hd.
  assert (E : RInt (fun t => cos (t + d * sin t) ^ 2 * cos t) 0 (2 * PI) = - RInt (fun t => sin t * sin (2 * d * sin t) * cos t ^ 2) 0 (2 * PI)).
  { rewrite (int_ext _ (fun t => (/ 2 + (1 - 2 * sin t ^ 2) * cos (2 * d * sin t) / 2) * cos t - sin t * sin (2 * d * sin t) * cos t ^ 2)).
    - rewrite int_minus by derive_continuous.
      assert (Z : RInt (fun t => (/ 2 + (1 - 2 * sin t ^ 2) * cos (2 * d * sin t) / 2) * cos t) 0 (2 * PI) = 0) by (apply (turn_zero (fun y => / 2 + (1 - 2 * y ^ 2) * cos (2 * d * y) / 2)); derive_continuous).
      rewrite Z. rq. ring.
    - intro t. rq.
      assert (C2 : cos (t + d * sin t) ^ 2 = / 2 + cos (2 * (t + d * sin t)) / 2) by (rewrite cos_2a_cos; field).
      rewrite C2. replace (2 * (t + d * sin t)) with (2 * t + 2 * d * sin t) by ring. rewrite cos_plus, cos_2a_sin, sin_2a. field. }
  rewrite E. set (I := RInt (fun t => sin t * sin (2 * d * sin t) * cos t ^ 2) 0 (2 * PI)). pose proof PI_RGT_0 as P.
  assert (B : exists q, 0 <= q <= 1 /\ I = q * (PI * d / 2)); [|destruct B as (q & Q & ->); now exists q].
  assert (W : forall d, 0 < d <= 1 -> 0 <= RInt (fun t => sin t * sin (2 * d * sin t) * cos t ^ 2) 0 (2 * PI) <= PI * d / 2).
  { clear - P. intros d Hd. split.
    - apply Rle_trans with (RInt (fun _ => 0) 0 (2 * PI)); [rewrite int_const; apply Req_le; ring|]. apply int_le; [lra|derive_continuous|derive_continuous|].
      intro t. pose proof (sin_between (2 * d) (sin t) ltac:(lra) (SIN_bound t)). apply Rmult_le_pos; [lra|apply pow2_ge_0].
    - replace (PI * d / 2) with (RInt (fun t => 2 * d * (sin t ^ 2 * cos t ^ 2)) 0 (2 * PI)) by (rewrite int_scal by derive_continuous; rewrite int_sin2cos2; rq; field).
      apply int_le; [lra|derive_continuous|derive_continuous|]. intro t. pose proof (sin_between (2 * d) (sin t) ltac:(lra) (SIN_bound t)). pose proof (pow2_ge_0 (cos t)).
      rewrite <- Rmult_assoc. apply Rmult_le_compat_r; lra. }
  assert (V : forall d J, 0 < d -> 0 <= J <= PI * d / 2 -> exists q, 0 <= q <= 1 /\ J = q * (PI * d / 2)).
  { clear - P. intros d J Hd HJ. assert (0 < PI * d / 2) by (pose proof (Rmult_lt_0_compat _ _ P Hd); lra). exists (J / (PI * d / 2)). split; [split|field; lra].
    - apply Rle_mult_inv_pos; lra.
    - apply (Rmult_le_reg_r (PI * d / 2)); [assumption|]. unfold Rdiv at 1. rewrite Rmult_assoc, Rinv_l; lra. }
  destruct (Rtotal_order d 0) as [N|[->|N]].
  - destruct (V (- d) (- I)) as (q & Q & EQ); [lra| |exists q; split; [exact Q|lra]].
    replace (- I) with (RInt (fun t => sin t * sin (2 * - d * sin t) * cos t ^ 2) 0 (2 * PI)); [apply W; lra|].
    unfold I. replace (- RInt (fun t => sin t * sin (2 * d * sin t) * cos t ^ 2) 0 (2 * PI)) with (-1 * RInt (fun t => sin t * sin (2 * d * sin t) * cos t ^ 2) 0 (2 * PI)) by (rq; ring).
    rewrite <- int_scal by derive_continuous. apply int_ext. intro t. replace (2 * - d * sin t) with (- (2 * d * sin t)) by ring. rewrite sin_neg. rq. ring.
  - exists 0. split; [lra|]. unfold I. rewrite (int_ext _ (fun _ => 0)).
    + rewrite int_const. rq. ring.
    + intro t. replace (2 * 0 * sin t) with 0 by ring. rewrite sin_0. rq. ring.
  - apply V; [exact N|]. apply W. lra.
Qed.
