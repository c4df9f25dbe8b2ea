(** Lemmas for C103: the two spectral shapes. *)
From Coq Require Import ZArith Bool Reals Lra Lia List Permutation.
From Flocq Require Import Core.Core IEEE754.BinarySingleNaN.
From Verif Require Import Base FloatComp FloatCompProofs FloatCompAcc FloatSource SpecFloatSource FloatSourceProofs FloatSpace FloatSpaceProofs FloatProfileProofs.
From Verif Require Import FloatReactivity SpecFloatReactivity FloatReactivityProofs FloatGeometryProofs.
From Verif Require Import Energy SpecEnergy EnergyProofs FloatEnergy SpecFloatEnergy FloatEnergyProofs.
Open Scope R_scope.
Local Notation bp := (bpow radix2).

(** ** Relative closeness: a factor of at most exp (r uu) *)
Definition rclose (r x y : R) : Prop := 0 <= x /\ 0 <= y /\ x <= y * exp (r * uu) /\ y <= x * exp (r * uu).
Lemma exp_ge1 x : 0 <= x -> 1 <= exp x.
Proof. intros [H| <-]; [|rewrite exp_0; lra]. pose proof (exp_ineq1 x ltac:(lra)). lra. Qed.
Lemma exp_le a b : a <= b -> exp a <= exp b.
Proof. intros [H| ->]; [left; now apply exp_increasing|lra]. Qed.
Lemma exp_uu_le r r' : r <= r' -> exp (r * uu) <= exp (r' * uu).
Proof. intro H. apply exp_le. apply Rmult_le_compat_r; [left; apply uu_pos|exact H]. Qed.
Lemma rclose_refl r x : 0 <= r -> 0 <= x -> rclose r x x.
Proof. intros Hr H. assert (1 <= exp (r * uu)) by (apply exp_ge1; pose proof uu_pos; nra). repeat split; try lra; nra. Qed.
Lemma rclose_sym r x y : rclose r x y -> rclose r y x.
Proof. unfold rclose. tauto. Qed.
Lemma rclose_weaken r r' x y : r <= r' -> rclose r x y -> rclose r' x y.
Proof. intros H (A & B & C & D). pose proof (exp_uu_le _ _ H). repeat split; auto; [apply Rle_trans with (y * exp (r * uu))|apply Rle_trans with (x * exp (r * uu))]; auto; apply Rmult_le_compat_l; auto. Qed.
Lemma rclose_trans r r' x y z : rclose r x y -> rclose r' y z -> rclose (r + r') x z.
Proof.
  intros (A & B & C & D) (A' & B' & C' & D'). pose proof (exp_pos (r * uu)). pose proof (exp_pos (r' * uu)).  repeat split; try lra; rewrite Rmult_plus_distr_r, exp_plus.
  - apply Rle_trans with (y * exp (r * uu)); [lra|]. replace (z * (exp (r * uu) * exp (r' * uu))) with (z * exp (r' * uu) * exp (r * uu)) by ring. apply Rmult_le_compat_r; lra.
  - apply Rle_trans with (y * exp (r' * uu)); [lra|]. replace (x * (exp (r * uu) * exp (r' * uu))) with (x * exp (r * uu) * exp (r' * uu)) by ring. apply Rmult_le_compat_r; lra.
Qed.
Lemma rclose_mult r r' x y a b : rclose r x y -> rclose r' a b -> rclose (r + r') (x * a) (y * b).
Proof.
  intros (A & B & C & D) (A' & B' & C' & D'). repeat split; try (apply Rmult_le_pos; lra); rewrite Rmult_plus_distr_r, exp_plus.
  - replace (y * b * (exp (r * uu) * exp (r' * uu))) with (y * exp (r * uu) * (b * exp (r' * uu))) by ring. apply Rmult_le_compat; lra.
  - replace (x * a * (exp (r * uu) * exp (r' * uu))) with (x * exp (r * uu) * (a * exp (r' * uu))) by ring. apply Rmult_le_compat; lra.
Qed.
Lemma rclose_pos r x y : rclose r x y -> 0 < y -> 0 < x.
Proof. intros (A & B & C & D) H. destruct A as [A| <-]; [exact A|]. lra. Qed.
Lemma rclose_inv r x y : rclose r x y -> 0 < y -> rclose r (/ x) (/ y).
Proof.
  intros H Hy. pose proof (rclose_pos _ _ _ H Hy) as Hx. destruct H as (A & B & C & D). pose proof (exp_pos (r * uu)). pose proof (Rinv_0_lt_compat _ Hx). pose proof (Rinv_0_lt_compat _ Hy).
  repeat split; try lra.
  - apply (Rmult_le_reg_l (x * y)); [nra|]. replace (x * y * / x) with y by (field; lra). replace (x * y * (/ y * exp (r * uu))) with (x * exp (r * uu)) by (field; lra). exact D.
  - apply (Rmult_le_reg_l (x * y)); [nra|]. replace (x * y * / y) with x by (field; lra). replace (x * y * (/ x * exp (r * uu))) with (y * exp (r * uu)) by (field; lra). exact C.
Qed.
Lemma rclose_div r r' x y a b : rclose r x y -> rclose r' a b -> 0 < b -> rclose (r + r') (x / a) (y / b).
Proof. intros H H' Hb. apply rclose_mult; [exact H|now apply rclose_inv]. Qed.
Lemma rclose_plus r x y a b : rclose r x y -> rclose r a b -> rclose r (x + a) (y + b).
Proof. intros (A & B & C & D) (A' & B' & C' & D'). repeat split; lra. Qed.
Lemma rclose_scale r x y a : 0 <= a -> rclose r x y -> rclose r (a * x) (a * y).
Proof. intros Ha H. replace r with (0 + r) by ring. apply rclose_mult; [apply rclose_refl; lra|exact H]. Qed.
Lemma rclose_of_close n x y : close n x y -> rclose (1.001 * INR n) x y.
Proof.
  intros (A & B & C & D). assert (W : wp n <= exp (1.001 * INR n * uu)).
  { clear. induction n as [|n IH]; [cbn; apply exp_ge1; lra|]. rewrite S_INR. replace (1.001 * (INR n + 1) * uu) with (1.001 * uu + 1.001 * INR n * uu) by ring. rewrite exp_plus. change (wp (S n)) with (ww * wp n).
    apply Rmult_le_compat; [pose proof ww_1; lra|left; apply wp_pos| |exact IH]. pose proof (exp_ineq1_le (1.001 * uu)) as E. eapply Rle_trans; [|exact E]. unfold ww. pose proof uu_pos. pose proof uu_1e15.
    apply (Rmult_le_reg_r (1 - uu)); [lra|]. rewrite Rinv_l by lra. nra. }
  repeat split; auto; [apply Rle_trans with (y * wp n)|apply Rle_trans with (x * wp n)]; auto; apply Rmult_le_compat_l; auto.
Qed.
Lemma rclose_exp r a b : Rabs (a - b) <= r * uu -> rclose r (exp a) (exp b).
Proof.
  intro H. apply Rabs_le_inv in H. pose proof (exp_pos a). pose proof (exp_pos b). repeat split; try lra; rewrite <- exp_plus; apply exp_le; lra.
Qed.
Lemma exp_small x : 0 <= x <= / 100 -> exp x <= 1 + 1.011 * x.
Proof.
  intro H. assert (E : exp x <= / (1 - x)). { rewrite <- (Rinv_inv (exp x)), <- exp_Ropp. apply Rinv_le_contravar; [lra|]. pose proof (exp_ineq1_le (- x)). lra. }
  eapply Rle_trans; [exact E|]. apply (Rmult_le_reg_r (1 - x)); [lra|]. rewrite Rinv_l by lra. nra.
Qed.
Lemma rclose_of_abs r x y : 0 <= r -> r * uu <= / 100 -> 0 <= y -> Rabs (x - y) <= r * uu * y -> rclose (1.02 * r) x y.
Proof.
  intros Hr S Hy H. apply Rabs_le_inv in H. pose proof uu_pos. set (e := r * uu) in *. assert (E0 : 0 <= e) by (unfold e; nra). unfold rclose. replace (1.02 * r * uu) with (1.02 * e) by (unfold e; ring).
  pose proof (exp_ineq1_le (1.02 * e)) as E. assert (X : 0 <= x) by nra. assert (0 <= y * e) by nra.
  repeat split; auto; [apply Rle_trans with (y * (1 + 1.02 * e)); [lra|apply Rmult_le_compat_l; lra]|].
  apply Rle_trans with (x * (1 + 1.02 * e)); [|apply Rmult_le_compat_l; lra]. assert (y * (1 - e) <= x) by lra. apply Rle_trans with (y * (1 - e) * (1 + 1.02 * e)); [|apply Rmult_le_compat_r; lra].
  replace (y * (1 - e) * (1 + 1.02 * e)) with (y + y * (e * (1.02 - 1 - 1.02 * e))) by ring. assert (0 <= y * (e * (1.02 - 1 - 1.02 * e))) by (apply Rmult_le_pos; [exact Hy|apply Rmult_le_pos; lra]). lra.
Qed.
Lemma rclose_abs r x y : 0 <= r -> r * uu <= / 100 -> rclose r x y -> Rabs (x - y) <= 1.011 * (r * uu) * y.
Proof.
  intros Hr S (A & B & C & D). pose proof uu_pos. assert (E0 : 0 <= r * uu) by nra. pose proof (exp_small (r * uu) ltac:(lra)) as E. set (e := r * uu) in *. set (q := exp e) in *.
  assert (X1 : x * q <= x * (1 + 1.011 * e)) by (apply Rmult_le_compat_l; lra). assert (Y1 : y * q <= y * (1 + 1.011 * e)) by (apply Rmult_le_compat_l; lra). assert (0 <= e * y) by (apply Rmult_le_pos; lra).
  apply Rabs_le. split; [|lra]. destruct (Rle_lt_dec y x); [lra|]. assert (e * x <= e * y) by (apply Rmult_le_compat_l; lra). lra.
Qed.

(** ** The trapezoid integral *)
Lemma integral_rclose r1 r2 (f f' g g' : nat -> R) n : forall s,
  (forall i, (s <= i)%nat -> (S i < s + n)%nat -> rclose r1 (f (S i) - f i) (f' (S i) - f' i)) -> (forall i, (s <= i < s + n)%nat -> rclose r2 (g i) (g' i)) ->
  0 <= r1 + r2 -> rclose (r1 + r2) (integral (map (fun i => (f i, g i)) (seq s n))) (integral (map (fun i => (f' i, g' i)) (seq s n))).
Proof.
  induction n as [|n IH]; intros s Hf Hg Hr; [apply rclose_refl; [exact Hr|cbn; lra]|]. destruct n as [|n]; [apply rclose_refl; [exact Hr|cbn; lra]|].
  change (seq s (S (S n))) with (s :: S s :: seq (S (S s)) n). specialize (IH (S s)). change (seq (S s) (S n)) with (S s :: seq (S (S s)) n) in IH. cbn [map] in *.
  assert (U : forall a b l, integral (a :: b :: l) = (fst b - fst a) * (snd a + snd b) * / 2 + integral (b :: l)) by (intros [] [] l; reflexivity).
  rewrite !U. cbn [fst snd]. apply rclose_plus.
  - rewrite !(Rmult_comm _ (/ 2)). apply rclose_scale; [lra|]. apply rclose_mult; [apply Hf; lia|]. apply rclose_plus; apply Hg; lia.
  - apply IH; [intros; apply Hf; lia|intros; apply Hg; lia|exact Hr].
Qed.

(** ** The energy grid *)
Lemma scale_of x : / 1000000 <= x <= 1000000000000 -> scale x.
Proof.
  intro H. assert (bp (-200) <= bp (-20)) by (apply bpow_le; lia). assert (bp 40 <= bp 200) by (apply bpow_le; lia). change (bp (-20)) with (/ 1048576) in *. change (bp 40) with 1099511627776 in *. unfold scale. lra.
Qed.
Lemma nat_float i : (i <= 1000)%nat -> is_finite (f64_of_Z (Z.of_nat i)) = true /\ B2R (f64_of_Z (Z.of_nat i)) = INR i.
Proof. intro H. destruct (f64_of_Z_exact (Z.of_nat i)) as [F V]; [lia|]. split; [exact F|]. now rewrite V, <- INR_IZR_INZ. Qed.
Lemma INR_999 : INR 999 = 999.
Proof. rewrite INR_IZR_INZ. reflexivity. Qed.
Section Grid.
  Variables (m s : f64) (mu sg : R).
  Hypotheses (Fm : is_finite m = true) (Fs : is_finite s = true) (Em : Rabs (B2R m - mu) <= 5 * (uu * mu)) (Es : Rabs (B2R s - sg) <= 12 * (uu * sg)).
  Hypotheses (Kl : 10 * sg <= mu) (Kh : mu <= 8192 * sg) (Ml : 1024 <= mu) (Mh : mu <= 16384).
  Let start : f64 := fsub m (fmul (f64_of_Z 6) s).
  Let stop : f64 := fadd m (fmul (f64_of_Z 6) s).
  Lemma sg_size : 1 / 8 <= sg <= 1638.4. Proof. lra. Qed.
  Lemma mu_scale : scale mu. Proof. apply scale_of. lra. Qed.
  Lemma six_sigma : near mu 8.5 (fmul (f64_of_Z 6) s) (6 * sg).
  Proof.
    pose proof sg_size. pose proof uu_pos. destruct (f64_of_Z_exact 6 ltac:(lia)) as [F6 V6].
    assert (N6 : near 1 0 (f64_of_Z 6) 6) by (split; [exact F6|]; rewrite V6, Rminus_diag_eq, Rabs_R0 by reflexivity; lra).
    assert (Ns : near mu 1.2 s sg). { split; [exact Fs|]. eapply Rle_trans; [exact Es|]. assert (uu * sg <= uu * (mu / 10)) by (apply Rmult_le_compat_l; lra). lra. }
    pose proof (near_mul 1 mu 0 1.2 6 0.2 _ _ _ _ ltac:(rewrite Rmult_1_l; apply mu_scale) ltac:(lra) ltac:(lra) ltac:(lra) ltac:(lra) ltac:(lra) ltac:(lra) N6 Ns ltac:(rewrite Rabs_pos_eq; lra) ltac:(rewrite Rabs_pos_eq; lra) ltac:(lra) ltac:(lra) ltac:(lra)) as N.
    rewrite Rmult_1_l in N. eapply near_weak; [lra|exact N|lra].
  Qed.
  Lemma m_near : near mu 5 m mu. Proof. split; [exact Fm|exact Em]. Qed.
  Lemma start_near : near mu 15 start (mu - 6 * sg).
  Proof.
    pose proof sg_size. pose proof uu_1e15. pose proof uu_pos. eapply near_weak; [lra|apply (near_sub mu 5 8.5 1); [apply mu_scale|lra|exact m_near|exact six_sigma|rewrite Rabs_pos_eq; lra|lra|lra]|lra].
  Qed.
  Lemma stop_near : near mu 16 stop (mu + 6 * sg).
  Proof.
    pose proof sg_size. pose proof uu_1e15. pose proof uu_pos. eapply near_weak; [lra|apply (near_add mu 5 8.5 1.6); [apply mu_scale|lra|exact m_near|exact six_sigma|rewrite Rabs_pos_eq; lra|lra|lra]|lra].
  Qed.
  Let delta : f64 := fsub stop start.
  Lemma delta_near : near mu 33 delta (12 * sg).
  Proof.
    pose proof sg_size. pose proof uu_1e15. pose proof uu_pos. replace (12 * sg) with (mu + 6 * sg - (mu - 6 * sg)) by ring.
    eapply near_weak; [lra|apply (near_sub mu 16 15 1.2); [apply mu_scale|lra|exact stop_near|exact start_near|rewrite Rabs_pos_eq; lra|lra|lra]|lra].
  Qed.
  Let step : f64 := fdiv delta (f64_of_Z (Z.of_nat (1000 - 1))).
  Lemma step_near : near (mu / 999) 35 step (12 * sg / 999) /\ 0 < B2R step.
  Proof.
    pose proof sg_size. pose proof uu_1e15. pose proof uu_pos. destruct delta_near as [Fd Ed]. destruct (nat_float 999 ltac:(lia)) as [F9 V9]. change (1000 - 1)%nat with 999%nat in *. rewrite INR_999 in V9.
    assert (Sz : Rabs (B2R delta - 12 * sg) <= / 1000 * mu). { eapply Rle_trans; [exact Ed|]. assert (uu * mu <= / 1000000 * mu) by (apply Rmult_le_compat_r; lra). lra. }
    assert (Q : Rabs (B2R delta / B2R (f64_of_Z (Z.of_nat 999))) <= 1.3 * (mu / 999)).
    { rewrite V9. unfold Rdiv. rewrite Rabs_mult, (Rabs_pos_eq (/ 999)) by lra. apply Rabs_le_inv in Sz. assert (Rabs (B2R delta) <= 1.3 * mu) by (apply Rabs_le; lra). lra. }
    destruct (fdiv_about (mu / 999) 1.3 delta _ (scale_of (mu / 999) ltac:(lra)) (K30 1.3 ltac:(lra)) Fd F9 ltac:(rewrite V9; lra) Q) as [F E].
    assert (N : near (mu / 999) 35 step (12 * sg / 999)).
    { split; [exact F|]. fold step in E. rewrite V9 in E. replace (B2R step - 12 * sg / 999) with ((B2R step - B2R delta / 999) + (B2R delta - 12 * sg) * / 999) by lra. eapply Rle_trans; [apply Rabs_triang|].
      rewrite Rabs_mult, (Rabs_pos_eq (/ 999)) by lra. assert (0 <= uu * mu) by (apply Rmult_le_pos; lra). lra. }
    split; [exact N|]. destruct N as [_ N]. apply Rabs_le_inv in N. assert (uu * (mu / 999) <= / 1000000000 * (mu / 999)) by (apply Rmult_le_compat_r; lra). lra.
  Qed.
  Definition e64 (i : nat) : f64 := if Nat.eqb i (1000 - 1) then stop else let x := f64_of_Z (Z.of_nat i) in fadd (if Beqb step f0 then fmul (fdiv x (f64_of_Z (Z.of_nat (1000 - 1)))) delta else fmul x step) start.
  Lemma energies_map : energies64 m s = map e64 (seq 0 1000). Proof. reflexivity. Qed.
  Lemma grid_range i : (i <= 999)%nat -> -6 <= 12 * INR i / 999 - 6 <= 6 /\ mu - 6 * sg <= grid_energy mu sg i <= mu + 6 * sg.
  Proof.
    intro H. pose proof sg_size. apply le_INR in H. rewrite INR_999 in H. pose proof (pos_INR i). assert (B : -6 <= 12 * INR i / 999 - 6 <= 6) by lra. split; [exact B|]. unfold grid_energy. set (t := 12 * INR i / 999 - 6) in *. clearbody t. split; nra.
  Qed.
  Lemma e64_near i : (i <= 999)%nat -> near mu 53 (e64 i) (grid_energy mu sg i).
  Proof.
    intro Hi. pose proof sg_size as S. pose proof uu_1e15. pose proof uu_pos. destruct (grid_range i Hi) as [B R]. unfold e64. destruct (Nat.eqb_spec i (1000 - 1)) as [E|E].
    - change (1000 - 1)%nat with 999%nat in E. subst i. eapply near_weak; [lra| |]. replace (grid_energy mu sg 999) with (mu + 6 * sg) by (unfold grid_energy; rewrite INR_999; lra). apply stop_near. lra.
    - destruct step_near as [N P]. destruct (nat_float i ltac:(lia)) as [Fi Vi]. cbv zeta.
      assert (Z : Beqb step f0 = false) by (apply eqb_val_f; [apply N|reflexivity|]; change (B2R f0) with 0; lra). rewrite Z.
      assert (Ni : near 999 0 (f64_of_Z (Z.of_nat i)) (INR i)) by (split; [exact Fi|]; rewrite Vi, Rminus_diag_eq, Rabs_R0 by reflexivity; lra).
      pose proof (pos_INR i) as I0. apply le_INR in Hi. rewrite INR_999 in Hi.
      pose proof (near_mul 999 (mu / 999) 0 35 1 1.2 _ _ _ _ ltac:(apply scale_of; lra) ltac:(lra) ltac:(lra) ltac:(lra) ltac:(lra) ltac:(lra) ltac:(lra) Ni N ltac:(rewrite Rabs_pos_eq; lra) ltac:(rewrite Rabs_pos_eq; lra) ltac:(lra) ltac:(lra) ltac:(lra)) as Nm.
      replace (999 * (mu / 999)) with mu in Nm by lra. apply (near_weak _ _ 36.25) in Nm; [|lra|lra].
      replace (grid_energy mu sg i) with (INR i * (12 * sg / 999) + (mu - 6 * sg)) by (unfold grid_energy; lra).
      assert (V : INR i * (12 * sg / 999) + (mu - 6 * sg) = grid_energy mu sg i) by (unfold grid_energy; lra).
      eapply near_weak; [lra|apply (near_add mu 36.25 15 1.6); [apply mu_scale|lra|exact Nm|exact start_near|rewrite V, Rabs_pos_eq; lra|lra|lra]|lra].
  Qed.
  Lemma e64_gap i : (S i <= 999)%nat -> Rabs (B2R (e64 (S i)) - B2R (e64 i) - 12 * sg / 999) <= 8825 * (mu / sg) * uu * (12 * sg / 999).
  Proof.
    intro Hi. pose proof sg_size. pose proof uu_pos. destruct (e64_near (S i) Hi) as [_ A]. destruct (e64_near i ltac:(lia)) as [_ B].
    replace (12 * sg / 999) with (grid_energy mu sg (S i) - grid_energy mu sg i) at 1 by (unfold grid_energy; rewrite S_INR; lra).
    replace (8825 * (mu / sg) * uu * (12 * sg / 999)) with (8825 * 12 / 999 * (uu * mu)) by (field; lra). assert (0 <= uu * mu) by (apply Rmult_le_pos; lra).
    replace (B2R (e64 (S i)) - B2R (e64 i) - (grid_energy mu sg (S i) - grid_energy mu sg i)) with ((B2R (e64 (S i)) - grid_energy mu sg (S i)) - (B2R (e64 i) - grid_energy mu sg i)) by ring.
    eapply Rle_trans; [apply Rabs_triang|]. rewrite Rabs_Ropp. lra.
  Qed.
End Grid.

(** ** Normalised shapes *)
Lemma spaced_map g (e : nat -> f64) n : forall a, (forall i, (a <= i)%nat -> (S i < a + n)%nat -> B2R (e i) + g <= B2R (e (S i))) -> spaced g (map e (seq a n)).
Proof.
  induction n as [|n IH]; intros a H; [exact I|]. destruct n as [|n]; [exact I|]. change (seq a (S (S n))) with (a :: S a :: seq (S (S a)) n). cbn [map spaced]. split; [apply H; lia|].
  apply (IH (S a)). intros; apply H; lia.
Qed.
Lemma combine_map_map {A B C} (f : A -> B) (g : A -> C) l : combine (map f l) (map g l) = map (fun x => (f x, g x)) l.
Proof. induction l as [|x l IH]; cbn; [reflexivity|now rewrite IH]. Qed.
Lemma integral_factor c (f g : nat -> R) l : integral (map (fun i => (f i, c * g i)) l) = c * integral (map (fun i => (f i, g i)) l).
Proof.
  induction l as [|i l IH]; [cbn; ring|]. destruct l as [|j l]; [cbn; ring|]. cbn [map] in *.
  assert (U : forall a b l, integral (a :: b :: l) = (fst b - fst a) * (snd a + snd b) * / 2 + integral (b :: l)) by (intros [] [] k; reflexivity). rewrite !U, IH. cbn [fst snd]. ring.
Qed.
Lemma integral_2pos (f g : nat -> R) n : forall a, (2 <= n)%nat -> (forall i, (a <= i)%nat -> (S i < a + n)%nat -> f i < f (S i)) -> (forall i, (a <= i < a + n)%nat -> 0 < g i) ->
  0 < integral (map (fun i => (f i, g i)) (seq a n)).
Proof.
  induction n as [|n IH]; intros a Hn Hf Hg; [lia|]. destruct n as [|n]; [lia|]. change (seq a (S (S n))) with (a :: S a :: seq (S (S a)) n). cbn [map].
  assert (U : forall a b l, integral (a :: b :: l) = (fst b - fst a) * (snd a + snd b) * / 2 + integral (b :: l)) by (intros [] [] k; reflexivity). rewrite U. cbn [fst snd].
  assert (0 < (f (S a) - f a) * (g a + g (S a))). { apply Rmult_lt_0_compat; [pose proof (Hf a ltac:(lia) ltac:(lia)); lra|pose proof (Hg a ltac:(lia)); pose proof (Hg (S a) ltac:(lia)); lra]. }
  destruct n as [|n]; [cbn; lra|]. specialize (IH (S a)). change (seq (S a) (S (S n))) with (S a :: seq (S (S a)) (S n)) in IH. cbn [map] in IH.
  pose proof (IH ltac:(lia) ltac:(intros; apply Hf; lia) ltac:(intros; apply Hg; lia)). lra.
Qed.
Lemma assembled np_sum (e q : nat -> f64) (E G : nat -> R) c r1 r2 : (forall l, sums l (np_sum l)) ->
  (forall i, (i < 1000)%nat -> row_ok (e i)) -> (forall i, (S i < 1000)%nat -> B2R (e i) + bp (-100) <= B2R (e (S i)) /\ E i < E (S i) /\ rclose r1 (B2R (e (S i)) - B2R (e i)) (E (S i) - E i)) ->
  (forall i, (i < 1000)%nat -> dens_ok (q i) /\ 0 < B2R (q i) /\ 0 < G i /\ rclose r2 (B2R (q i)) (c * G i)) -> 0 < c -> 0 <= r1 + r2 ->
  let I := integral (map (fun i => (E i, G i)) (seq 0 1000)) in
  exists p, prepare_energy_pdf64 np_sum (map e (seq 0 1000)) (map q (seq 0 1000)) = Ok (map e (seq 0 1000), map p (seq 0 1000)) /\ 0 < I /\
    (forall i, (i < 1000)%nat -> is_finite (p i) = true /\ 0 < B2R (p i) /\ rclose (1006 + r1 + 2 * r2) (B2R (p i)) (G i / I)) /\
    rclose 1006 (integral (combine (map B2R (map e (seq 0 1000))) (map B2R (map p (seq 0 1000))))) 1.
Proof.
  intros Hsum He Hg Hq Hc Hr I. set (el := map e (seq 0 1000)). set (ql := map q (seq 0 1000)).
  assert (Le : length el = 1000%nat) by (unfold el; now rewrite map_length, seq_length). assert (Lq : length ql = 1000%nat) by (unfold ql; now rewrite map_length, seq_length).
  assert (Re : Forall row_ok el) by (apply Forall_map, Forall_forall; intros i Hi; apply in_seq in Hi; apply He; lia).
  assert (Dq : Forall dens_ok ql) by (apply Forall_map, Forall_forall; intros i Hi; apply in_seq in Hi; apply Hq; lia).
  assert (Sp : spaced (bp (-100)) el) by (apply spaced_map; intros i _ Hi; apply Hg; lia).
  assert (Hh : B2R (hd f0 ql) <> 0) by (change (hd f0 ql) with (q 0%nat); pose proof (proj1 (proj2 (Hq 0%nat ltac:(lia)))); lra).
  assert (Hl : B2R (last ql f0) <> 0).
  { unfold ql. change 1000%nat with (999 + 1)%nat. rewrite seq_app, map_app. cbn [seq map]. rewrite last_last. pose proof (proj1 (proj2 (Hq (0 + 999)%nat ltac:(lia)))). lra. }
  assert (Fin : Forall (fun x : f64 => is_finite x = true) ql) by (eapply Forall_impl; [|exact Dq]; now intros x []).
  assert (N1 : INR (length el) <= bp 40). { rewrite Le, INR_IZR_INZ. change (bp 40) with 1099511627776. change (Z.of_nat 1000) with 1000%Z. lra. }
  destruct (total_ok np_sum el ql Hsum ltac:(lia) ltac:(lia) N1 Re Sp Dq Hh) as (Tn & Tc & TI). set (t := np_sum (panels64 el ql)) in *. set (I' := integral (combine (map B2R el) (map B2R ql))) in *.
  rewrite Le in Tc. assert (N2 : INR (1000 + 3) <= bp 42). { rewrite INR_IZR_INZ. change (bp 42) with 4398046511104. change (Z.of_nat (1000 + 3)) with 1003%Z. lra. }
  assert (I0 : 0 < I) by (unfold I; apply (integral_2pos E G 1000 0); [lia|intros; apply Hg; lia|intros; apply Hq; lia]).
  assert (EI : I' = integral (map (fun i => (B2R (e i), B2R (q i))) (seq 0 1000))) by (unfold I', el, ql; rewrite !map_map; now rewrite combine_map_map).
  assert (CI : rclose (r1 + r2) I' (c * I)).
  { rewrite EI. unfold I. rewrite <- integral_factor. apply (integral_rclose r1 r2 (fun i => B2R (e i)) E (fun i => B2R (q i)) (fun i => c * G i)); [intros; apply Hg; lia|intros; apply Hq; lia|exact Hr]. }
  pose proof (bp_pos (-701)) as Pb. assert (I'0 : 0 < I') by lra.
  exists (fun i => fdiv (q i) t). split.
  { pose proof (prepare_split np_sum [] el [] [] ql [] eq_refl ltac:(lia) eq_refl ltac:(constructor) ltac:(constructor) Fin) as P. cbn [app] in P. rewrite !app_nil_r in P. rewrite P; [|intro Z; rewrite Z in Lq; discriminate Lq|exact Hh|exact Hl]. fold t. unfold ql at 1. now rewrite map_map. }
  assert (Qk : forall i, (i < 1000)%nat -> fin_nn (fdiv (q i) t) /\ close (1000 + 4) (B2R (fdiv (q i) t)) (B2R (q i) / I')).
  { intros i Hi. destruct (Hq i Hi) as (D & P & _). exact (quotient_ok (q i) t I' (1000 + 3) N2 D Tn Tc TI). }
  assert (N4 : 1.001 * INR (1000 + 4) <= 1006). { rewrite INR_IZR_INZ. change (Z.of_nat (1000 + 4)) with 1004%Z. lra. }
  split; [exact I0|]. split.
  - intros i Hi. destruct (Qk i Hi) as [F C]. destruct (Hq i Hi) as (D & P & GP & R2). apply rclose_of_close in C.
    assert (0 < B2R (q i) / I') by (apply Rdiv_lt_0_compat; lra). split; [apply F|]. split; [eapply rclose_pos; [exact C|assumption]|].
    assert (R3 : rclose (r2 + (r1 + r2)) (B2R (q i) / I') (c * G i / (c * I))) by (apply rclose_div; [exact R2|exact CI|apply Rmult_lt_0_compat; assumption]).
    replace (c * G i / (c * I)) with (G i / I) in R3 by (field; lra). eapply rclose_weaken; [|exact (rclose_trans _ _ _ _ _ C R3)]. lra.
  - unfold el. rewrite !map_map, combine_map_map. replace 1 with (/ I' * I') by (field; lra). rewrite EI at 2. rewrite <- integral_factor. replace 1006 with (0 + 1006) by ring.
    apply (integral_rclose 0 1006 (fun i => B2R (e i)) (fun i => B2R (e i))).
    + intros i _ Hi. apply rclose_refl; [lra|]. destruct (Hg i Hi) as (Q & _). pose proof (bp_pos (-100)). lra.
    + intros i Hi. destruct (Qk i ltac:(lia)) as [_ C]. apply rclose_of_close in C. replace (/ I' * B2R (q i)) with (B2R (q i) / I') by (unfold Rdiv; ring). eapply rclose_weaken; [exact N4|exact C].
    + lra.
Qed.
