(** Lemmas for C85: sums over the cells of a continuous function converge to its integral. *)
From Coq Require Import Reals Lra Lia ZArith List Bool.
From Coquelicot Require Import Coquelicot.
From Verif Require Import Base Space SpaceProofs SpecSpace Geometry GeometryProofs SpecGeometry SpecConvex ConvexProofs SpecGrid GridProofs GridProofs2 GridConvex SpecIntegral.
Open Scope R_scope.

(** ** Integrals of continuous functions *)
Definition cont1 (f : R -> R) : Prop := forall x eps, 0 < eps -> exists del, 0 < del /\ forall y, Rabs (y - x) < del -> Rabs (f y - f x) < eps.
Lemma cont1_ex f a b : cont1 f -> ex_RInt f a b.
Proof.
  intro H. apply (ex_RInt_continuous (V := R_CompleteNormedModule)). intros x _. apply continuity_pt_filterlim. intros eps He. destruct (H x eps He) as (del & Hd & K). exists del. split; [exact Hd|]. intros y [_ Hy]. apply K. exact Hy.
Qed.
Lemma RInt_sub f a b c : cont1 f -> RInt f a c - RInt f a b = RInt f b c.
Proof. intro H. rewrite <- (RInt_Chasles f a b c) by now apply cont1_ex. unfold plus. cbn. lra. Qed.
Lemma RInt_bound f a b B : cont1 f -> (forall t, Rmin a b <= t <= Rmax a b -> Rabs (f t) <= B) -> Rabs (RInt f a b) <= Rabs (b - a) * B.
Proof.
  intros H HB. destruct (Rle_dec a b) as [L|L].
  - rewrite (Rabs_pos_eq (b - a)) by lra. apply abs_RInt_le_const; [exact L|now apply cont1_ex|]. intros t Ht. apply HB. rewrite Rmin_left, Rmax_right; lra.
  - rewrite <- opp_RInt_swap by now apply cont1_ex. unfold opp. cbn. rewrite Rabs_Ropp, (Rabs_left (b - a)) by lra. replace (- (b - a)) with (a - b) by ring.
    apply abs_RInt_le_const; [lra|now apply cont1_ex|]. intros t Ht. apply HB. rewrite Rmin_right, Rmax_left; lra.
Qed.
Lemma cont1_minus_const f c : cont1 f -> cont1 (fun t => f t - c).
Proof. intros H x eps He. destruct (H x eps He) as (d & Hd & K). exists d. split; [exact Hd|]. intros y Hy. replace (f y - c - (f x - c)) with (f y - f x) by ring. now apply K. Qed.
Lemma cont1_const c : cont1 (fun _ => c).
Proof. intros x eps He. exists 1. split; [lra|]. intros. replace (c - c) with 0 by ring. now rewrite Rabs_R0. Qed.
Lemma RInt_minus_R f g a b : cont1 f -> cont1 g -> RInt (fun t => f t - g t) a b = RInt f a b - RInt g a b.
Proof. intros Hf Hg. apply is_RInt_unique. apply (is_RInt_minus (V := R_NormedModule) f g a b); apply (RInt_correct (V := R_CompleteNormedModule)); now apply cont1_ex. Qed.
Lemma RInt_const_R a b c : RInt (fun _ => c) a b = (b - a) * c.
Proof. apply is_RInt_unique. exact (is_RInt_const (V := R_NormedModule) a b c). Qed.
Lemma RInt_near f a b c w : cont1 f -> a <= b -> (forall t, a <= t <= b -> Rabs (f t - c) <= w) -> Rabs (RInt f a b - (b - a) * c) <= (b - a) * w.
Proof.
  intros H L K. replace (RInt f a b - (b - a) * c) with (RInt (fun t => f t - c) a b).
  - apply abs_RInt_le_const; [exact L| |exact K]. apply cont1_ex. now apply cont1_minus_const.
  - rewrite RInt_minus_R; [|exact H|apply cont1_const]. now rewrite RInt_const_R.
Qed.
(** Midpoint sums. *)
Lemma riemann f a h w k n : 0 < h -> cont1 f -> (forall j t, (k <= j < k + n)%nat -> Rabs (t - node a h j) <= h / 2 -> Rabs (f t - f (node a h j)) <= w) ->
  Rabs (h * sumf (fun j => f (node a h j)) (seq k n) - RInt f (node a h k - h / 2) (node a h (k + n) - h / 2)) <= INR n * (h * w).
Proof.
  intros Hh Hf. induction n as [|n IH]; intro H.
  - rewrite Nat.add_0_r, RInt_point. cbn. unfold zero. cbn. rewrite Rmult_0_r, Rminus_0_r, Rabs_R0. lra.
  - rewrite seq_S, sumf_app, S_INR. cbn [sumf fold_right]. specialize (IH ltac:(intros; apply H; [lia|assumption])).
    rewrite Nat.add_succ_r, node_S. set (u := node a h k - h / 2) in *. set (v := node a h (k + n)) in *.
    replace (RInt f u (v + h - h / 2)) with (RInt f u (v - h / 2) + RInt f (v - h / 2) (v + h / 2)).
    2:{ replace (v + h - h / 2) with (v + h / 2) by field. rewrite <- (RInt_sub f u (v - h / 2) (v + h / 2) Hf). ring. }
    pose proof (RInt_near f (v - h / 2) (v + h / 2) (f v) w Hf ltac:(lra)) as N. assert (Q : forall t, v - h / 2 <= t <= v + h / 2 -> Rabs (f t - f v) <= w) by (intros t Ht; apply H; [lia|apply Rabs_le; fold v; lra]).
    specialize (N Q). replace (v + h / 2 - (v - h / 2)) with h in N by field. rewrite Rabs_minus_sym in N.
    match goal with |- Rabs ?e <= _ => replace e with ((h * sumf (fun j => f (node a h j)) (seq k n) - RInt f u (v - h / 2)) + (h * f v - RInt f (v - h / 2) (v + h / 2))) by ring end.
    eapply Rle_trans; [apply Rabs_triang|]. lra.
Qed.

(** ** A bounded, uniformly continuous function of the plane *)
Section Plane.
  Variable g : R -> R -> R.
  Variable B : R.
  Hypothesis HB : forall x z, Rabs (g x z) <= B.
  Hypothesis Hu : forall eps, 0 < eps -> exists del, 0 < del /\ forall x z x' z', Rabs (x - x') < del -> Rabs (z - z') < del -> Rabs (g x z - g x' z') < eps.
  Lemma B_pos : 0 <= B. Proof. specialize (HB 0 0). pose proof (Rabs_pos (g 0 0)). lra. Qed.
  Lemma g_cont z : cont1 (fun t => g t z).
  Proof. intros x eps He. destruct (Hu eps He) as (d & Hd & K). exists d. split; [exact Hd|]. intros y Hy. apply K; [exact Hy|]. replace (z - z) with 0 by ring. now rewrite Rabs_R0. Qed.
  Definition Gh (x z : R) : R := RInt (fun t => g t z) 0 x.
  Lemma Gh_mod x z x' z' w : (forall t, Rabs (g t z - g t z') <= w) -> Rabs (Gh x z - Gh x' z') <= B * Rabs (x - x') + Rabs x' * w.
  Proof.
    intro H. unfold Gh. replace (RInt (fun t => g t z) 0 x - RInt (fun t => g t z') 0 x') with (RInt (fun t => g t z) x' x + RInt (fun t => g t z - g t z') 0 x').
    - eapply Rle_trans; [apply Rabs_triang|]. apply Rplus_le_compat.
      + rewrite Rmult_comm. apply RInt_bound; [apply g_cont|]. intros. apply HB.
      + replace (Rabs x') with (Rabs (x' - 0)) by (f_equal; ring). apply RInt_bound; [|intros; apply H].
        intros y eps He. destruct (g_cont z y (eps / 2) ltac:(lra)) as (d1 & P1 & K1). destruct (g_cont z' y (eps / 2) ltac:(lra)) as (d2 & P2 & K2).
        exists (Rmin d1 d2). split; [now apply Rmin_glb_lt|]. intros t Ht. specialize (K1 t (Rlt_le_trans _ _ _ Ht (Rmin_l _ _))). specialize (K2 t (Rlt_le_trans _ _ _ Ht (Rmin_r _ _))).
        apply Rabs_def2 in K1, K2. apply Rabs_def1; lra.
    - rewrite <- (RInt_sub (fun t => g t z) 0 x' x (g_cont z)). rewrite (RInt_minus_R (fun t => g t z) (fun t => g t z') 0 x') by apply g_cont. ring.
  Qed.

  (** *** One edge *)
  Section Edge.
    Variables a b : R * R.
    Hypothesis Hd : snd b - snd a <> 0.
    Notation phi := (fun z => Gh (meet a b z) z).
    Let q := (fst b - fst a) / (snd b - snd a).
    Lemma meet_lin z z' : meet a b z - meet a b z' = q * (z - z').
    Proof. unfold meet, q. field. exact Hd. Qed.
    Lemma phi_mod z z' w : (forall t, Rabs (g t z - g t z') <= w) -> Rabs (phi z - phi z') <= B * (Rabs q * Rabs (z - z')) + Rabs (meet a b z') * w.
    Proof. intro H. eapply Rle_trans; [apply Gh_mod, H|]. rewrite meet_lin, Rabs_mult. lra. Qed.
    Lemma phi_cont : cont1 phi.
    Proof.
      intros z eps He. pose proof B_pos as PB. set (m := Rabs (meet a b z)). assert (Pm : 0 <= m) by apply Rabs_pos. pose proof (Rabs_pos q) as Pq. assert (P0 : 0 <= B * Rabs q) by now apply Rmult_le_pos.
      destruct (Hu (eps / 2 / (m + 1))) as (d & Pd & K); [apply Rdiv_lt_0_compat; lra|].
      exists (Rmin d (eps / 2 / (B * Rabs q + 1))). assert (P2 : 0 < eps / 2 / (B * Rabs q + 1)) by (apply Rdiv_lt_0_compat; lra). split; [now apply Rmin_glb_lt|]. intros y Hy.
      eapply Rle_lt_trans; [apply (phi_mod y z (eps / 2 / (m + 1)))|].
      - intro t. left. apply K; [replace (t - t) with 0 by ring; now rewrite Rabs_R0|]. eapply Rlt_le_trans; [exact Hy|apply Rmin_l].
      - fold m. assert (Rabs (y - z) < eps / 2 / (B * Rabs q + 1)) by (eapply Rlt_le_trans; [exact Hy|apply Rmin_r]).
        assert (m * (eps / 2 / (m + 1)) <= eps / 2). { replace (m * (eps / 2 / (m + 1))) with (eps / 2 * (m / (m + 1))) by (field; lra). rewrite <- (Rmult_1_r (eps / 2)) at 2. apply Rmult_le_compat_l; [lra|]. apply (Rmult_le_reg_r (m + 1)); [lra|]. unfold Rdiv. rewrite Rmult_assoc, Rinv_l; lra. }
        assert ((B * Rabs q + 1) * Rabs (y - z) < eps / 2). { apply Rlt_le_trans with ((B * Rabs q + 1) * (eps / 2 / (B * Rabs q + 1))); [apply Rmult_lt_compat_l; lra|]. right. field. lra. }
        pose proof (Rabs_pos (y - z)). lra.
    Qed.
  End Edge.
End Plane.
