(** Lemmas about the energy spectrum model. *)
From Coq Require Import Sorting.Sorted NArith Permutation.
From Verif Require Import Base Reactions Profile SpecProfile ProfileProofs SpectraData Energy SpecEnergy.
Open Scope R_scope.

(** ** Trimming *)
Lemma nonzero_zeros i s l : nonzero_from s (repeat 0 i ++ l) = nonzero_from (s + i) l.
Proof.
  revert s. induction i as [|i IH]; intro s; cbn [repeat app nonzero_from]; [now rewrite Nat.add_0_r|].
  rewrite Reqb_refl, IH. f_equal. lia.
Qed.
Lemma nonzero_app s l l' : nonzero_from s (l ++ l') = nonzero_from s l ++ nonzero_from (s + length l) l'.
Proof.
  revert s. induction l as [|x l IH]; intro s; cbn [app nonzero_from length]; [now rewrite Nat.add_0_r|].
  rewrite IH. replace (S s + length l)%nat with (s + S (length l))%nat by lia. now destruct (Reqb x 0).
Qed.
Lemma nonzero_all_zero s i : nonzero_from s (repeat 0 i) = [].
Proof. rewrite <- (app_nil_r (repeat 0 i)), nonzero_zeros. reflexivity. Qed.
Lemma last_of {A} (l : list A) d : l <> [] -> exists l' y, l = l' ++ [y] /\ last l d = y.
Proof.
  intro H. destruct (exists_last H) as (l' & y & ->). exists l', y. split; [reflexivity|apply last_last].
Qed.
Lemma nonzero_trimmed l i m j : trimmed l i m j -> exists r, nonzero_from 0 l = i :: r /\ S (last r i) = (i + length m)%nat.
Proof.
  intros (-> & Hm & Hh & Hl). rewrite nonzero_zeros. cbn [plus]. destruct m as [|x m]; [congruence|]. cbn [hd] in Hh.
  assert (Ex : exists t y, x :: m = t ++ [y] /\ y <> 0).
  { destruct (last_of (x :: m) 0 Hm) as (t & y & E & L). exists t, y. split; [exact E|congruence]. }
  destruct Ex as (t & y & E & Hy).
  assert (N : nonzero_from i (t ++ [y]) = nonzero_from i t ++ [(i + length t)%nat]).
  { rewrite nonzero_app. cbn [nonzero_from]. destruct (Reqb_spec y 0); [congruence|reflexivity]. }
  assert (N2 : nonzero_from i ((x :: m) ++ repeat 0 j) = nonzero_from i t ++ [(i + length t)%nat]).
  { rewrite nonzero_app, nonzero_all_zero, app_nil_r, E. exact N. }
  assert (Len : length (x :: m) = S (length t)) by (rewrite E, app_length; cbn; lia).
  rewrite N2. destruct t as [|x' t].
  - cbn [nonzero_from app length]. exists []. rewrite Nat.add_0_r. split; [reflexivity|]. cbn [last]. cbn [length] in Len |- *. lia.
  - cbn [app] in E. injection E as <- _. cbn [nonzero_from app]. destruct (Reqb_spec x 0); [congruence|]. cbn [app].
    eexists. split; [reflexivity|]. rewrite last_last. cbn [length] in *. lia.
Qed.
Lemma mask_shape i k j : map (fun n => Nat.leb i n && Nat.ltb n (i + k)) (seq 0 (i + (k + j))) = repeat false i ++ repeat true k ++ repeat false j.
Proof.
  rewrite !seq_app, !map_app. cbn [plus].
  assert (C : forall (f : nat -> bool) b s n, (forall x, (s <= x < s + n)%nat -> f x = b) -> map f (seq s n) = repeat b n).
  { intros f b s n. revert s. induction n as [|n IH]; intros s H; [reflexivity|]. cbn [seq map repeat]. rewrite H by lia. f_equal. apply IH. intros; apply H; lia. }
  f_equal; [|f_equal]; apply C; intros x Hx; destruct (Nat.leb_spec i x), (Nat.ltb_spec x (i + k)); try reflexivity; lia.
Qed.
Lemma masked_false {A} (l l' : list A) m : masked (l ++ l') (repeat false (length l) ++ m) = masked l' m.
Proof. induction l as [|x l IH]; [reflexivity|]. exact IH. Qed.
Lemma masked_true {A} (l l' : list A) m : masked (l ++ l') (repeat true (length l) ++ m) = l ++ masked l' m.
Proof. induction l as [|x l IH]; [reflexivity|]. unfold masked in *. cbn [length repeat app combine filter snd map fst]. now rewrite IH. Qed.
Lemma masked_slice {A} (a b c : list A) : masked (a ++ b ++ c) (repeat false (length a) ++ repeat true (length b) ++ repeat false (length c)) = b.
Proof.
  rewrite masked_false, masked_true. rewrite <- (app_nil_r c) at 1. rewrite <- (app_nil_r (repeat false (length c))), masked_false.
  unfold masked. cbn. apply app_nil_r.
Qed.
Lemma trim_mask l i m j : trimmed l i m j -> trim_zero_mask l = Ok (repeat false i ++ repeat true (length m) ++ repeat false j).
Proof.
  intro H. destruct (nonzero_trimmed l i m j H) as (r & E & L). unfold trim_zero_mask. rewrite E, L. f_equal.
  destruct H as (-> & _). rewrite !app_length, !repeat_length. apply mask_shape.
Qed.
Lemma trim_total l : Forall (fun x => x = 0) l \/ exists i m j, trimmed l i m j.
Proof.
  induction l as [|x l IH]; [left; constructor|]. destruct (Req_dec x 0) as [->|Hx].
  - destruct IH as [IH|(i & m & j & E & H)]; [left; now constructor|right]. exists (S i), m, j. split; [rewrite E; reflexivity|exact H].
  - right. destruct IH as [IH|(i & m & j & E & Hm & Hh & Hl)].
    + exists 0%nat, [x], (length l). split; [|split; [discriminate|split; exact Hx]]. cbn [repeat app]. f_equal.
      clear - IH. induction IH as [|y l Hy _ IH]; [reflexivity|]. cbn in Hy. subst y. cbn [length repeat]. now rewrite <- IH.
    + exists 0%nat, (x :: repeat 0 i ++ m), j. split; [cbn [repeat app]; rewrite E, app_assoc; reflexivity|]. split; [discriminate|].
      split; [exact Hx|]. destruct m as [|y m]; [congruence|]. rewrite app_comm_cons. 
      destruct (last_of (y :: m) 0 Hm) as (t & z & Et & L). rewrite Et, app_assoc, last_last. congruence.
Qed.
Lemma all_zero_mask l : Forall (fun x => x = 0) l -> trim_zero_mask l = Err EEnergySpectrum.
Proof.
  intro H. unfold trim_zero_mask. assert (E : forall s, nonzero_from s l = []); [|now rewrite E].
  induction H as [|x l H _ IH]; intro s; [reflexivity|]. subst x. cbn [nonzero_from]. rewrite Reqb_refl. apply IH.
Qed.

(** ** Integrals *)
Lemma trapezoid_integral y x : trapezoid y x = integral (combine x y).
Proof.
  revert x. induction y as [|y0 y IH]; intros [|x0 x]; try reflexivity; [now destruct y|]. destruct y as [|y1 y], x as [|x1 x]; try reflexivity.
  rewrite trapezoid_cons, IH. cbn [combine integral]. lra.
Qed.
Lemma integral_scale c x y : integral (combine x (map (fun p => c * p) y)) = c * integral (combine x y).
Proof.
  revert x. induction y as [|y0 y IH]; intros [|x0 x]; cbn [map combine integral]; try ring.
  destruct y as [|y1 y], x as [|x1 x]; cbn [map combine integral] in *; try ring.
  specialize (IH (x1 :: x)). cbn [map combine integral] in IH. rewrite IH. field.
Qed.
Lemma integral_nonneg x y : increasing x -> nonneg y -> 0 <= integral (combine x y).
Proof.
  intro Hx. revert y. induction Hx as [|x0 x Hs IH Hf]; intros [|y0 y] Hy; cbn [combine integral]; try lra.
  destruct x as [|x1 x]; [cbn; lra|]. destruct y as [|y1 y]; [cbn; lra|]. cbn [combine].
  inversion Hf as [|? ? Hlt _]; subst. inversion Hy as [|? ? H0 Hy']; subst. cbn in H0. pose proof (Forall_inv Hy') as H1. cbn in H1.
  specialize (IH (y1 :: y) Hy'). cbn [combine] in IH. assert (0 <= (x1 - x0) * (y0 + y1)) by (apply Rmult_le_pos; lra). lra.
Qed.
Lemma integral_pos x y : increasing x -> nonneg y -> length x = length y -> (2 <= length y)%nat ->
  (hd 0 y <> 0) -> 0 < integral (combine x y).
Proof.
  intros Hx Hy HL H2 Hh. destruct x as [|x0 [|x1 x]], y as [|y0 [|y1 y]]; cbn [length] in *; try lia. cbn [hd] in Hh.
  inversion Hx as [|? ? Hs Hf]; subst. pose proof (Forall_inv Hf) as Hlt. cbn in Hlt.
  inversion Hy as [|? ? H0 Hy']; subst. cbn in H0. pose proof (Forall_inv Hy') as H1. cbn in H1.
  pose proof (integral_nonneg _ _ Hs Hy') as Hn. cbn [combine] in *.
  change (0 < (x1 - x0) * (y0 + y1) / 2 + integral ((x1, y1) :: combine x y)).
  assert (0 < y0) by (destruct H0; [assumption|congruence]). assert (0 < (x1 - x0) * (y0 + y1)) by (apply Rmult_lt_0_compat; lra). lra.
Qed.

(** ** Preparing *)
Lemma prepare_trimmed e1 e2 e3 pdf i m j : trimmed pdf i m j -> length e1 = i -> length e2 = length m -> length e3 = j ->
  prepare_energy_pdf (e1 ++ e2 ++ e3) pdf =
  if Reqb (integral (combine e2 m)) 0 then NonFinite else Ok (e2, map (fun p => / integral (combine e2 m) * p) m).
Proof.
  intros H <- H2 <-. unfold prepare_energy_pdf. rewrite (trim_mask _ _ _ _ H). cbn [bind]. cbv zeta.
  rewrite <- H2, masked_slice. destruct H as (-> & Hm & _).
  assert (Em : masked (repeat 0 (length e1) ++ m ++ repeat 0 (length e3)) (repeat false (length e1) ++ repeat true (length e2) ++ repeat false (length e3)) = m).
  { rewrite H2. rewrite <- (repeat_length 0 (length e1)) at 2. rewrite <- (repeat_length 0 (length e3)) at 2. apply masked_slice. }
  rewrite Em, trapezoid_integral. set (I := integral (combine e2 m)). destruct (Reqb_spec I 0) as [Z|Z].
  - destruct m as [|p m]; [congruence|]. cbn [mapM]. unfold np_div at 1. now rewrite Z, Reqb_refl.
  - rewrite (mapM_pure _ (fun p => / I * p)).
    + reflexivity.
    + intros p _. rewrite np_div_ok by exact Z. unfold Rdiv. now rewrite Rmult_comm.
Qed.
Lemma trimmed_split {A} (e : list A) pdf i m j : trimmed pdf i m j -> length e = length pdf ->
  exists e1 e2 e3, e = e1 ++ e2 ++ e3 /\ length e1 = i /\ length e2 = length m /\ length e3 = j.
Proof.
  intros (-> & _) HL. rewrite !app_length, !repeat_length in HL.
  exists (firstn i e), (firstn (length m) (skipn i e)), (skipn (length m) (skipn i e)).
  rewrite !firstn_skipn. rewrite !firstn_length, !skipn_length. repeat split; lia.
Qed.
Lemma positive_trimmed l : positive l -> l <> [] -> trimmed l 0 l 0.
Proof.
  intros H N. split; [cbn; now rewrite app_nil_r|]. split; [exact N|]. split.
  - destruct H as [|x l Hx _]; [congruence|]. cbn [hd]. lra.
  - destruct (last_of l 0 N) as (t & y & -> & ->). unfold positive in H. rewrite Forall_app in H. destruct H as [_ H]. apply Forall_inv in H. lra.
Qed.
Lemma prepare_positive e pdf : positive pdf -> increasing e -> length e = length pdf -> (2 <= length pdf)%nat ->
  0 < integral (combine e pdf) /\ prepare_energy_pdf e pdf = Ok (e, map (fun p => / integral (combine e pdf) * p) pdf).
Proof.
  intros Hp He HL H2. assert (N : pdf <> []) by (destruct pdf; [cbn in H2; lia|discriminate]).
  assert (I : 0 < integral (combine e pdf)).
  { apply integral_pos; auto.
    - eapply Forall_impl; [|exact Hp]. intros; cbn in *; lra.
    - destruct Hp; [congruence|]. cbn [hd]. lra. }
  split; [exact I|]. pose proof (prepare_trimmed [] e [] pdf 0 pdf 0 (positive_trimmed _ Hp N) eq_refl HL eq_refl) as E.
  cbn [app] in E. rewrite app_nil_r in E. rewrite E. destruct (Reqb_spec (integral (combine e pdf)) 0); [lra|reflexivity].
Qed.
Lemma integral_of_prepared e pdf : integral (combine e pdf) <> 0 ->
  integral (combine e (map (fun p => / integral (combine e pdf) * p) pdf)) = 1.
Proof. intro H. rewrite integral_scale. now apply Rinv_l. Qed.

(** ** Grids *)
Lemma map_seq_increasing (f : nat -> R) s n : (forall i, f i < f (S i)) -> increasing (map f (seq s n)).
Proof.
  intro H. assert (M : forall i k, f i < f (i + S k)%nat).
  { intros i k. induction k as [|k IH]; [replace (i + 1)%nat with (S i) by lia; apply H|].
    eapply Rlt_trans; [exact IH|]. replace (i + S (S k))%nat with (S (i + S k)) by lia. apply H. }
  revert s. induction n as [|n IH]; intro s; cbn [seq map]; constructor; [apply IH|].
  apply Forall_forall. intros y Hy. apply in_map_iff in Hy. destruct Hy as (k & <- & Hk). apply in_seq in Hk.
  replace k with (s + S (k - s - 1))%nat by lia. apply M.
Qed.
Lemma linspace_map a b n : (2 <= n)%nat -> linspace a b n = map (fun i => a + INR i * ((b - a) / INR (n - 1))) (seq 0 n).
Proof. intro H. destruct n as [|[|n]]; [lia..|]. unfold linspace. replace (S (S n) - 1)%nat with (S n) by lia. reflexivity. Qed.
Lemma linspace_increasing a b n : (2 <= n)%nat -> a < b -> increasing (linspace a b n).
Proof.
  intros Hn H. rewrite linspace_map by exact Hn. apply map_seq_increasing. intro i. rewrite S_INR.
  assert (0 < INR (n - 1)) by (apply lt_0_INR; lia). assert (0 < (b - a) / INR (n - 1)) by (apply Rdiv_lt_0_compat; lra). lra.
Qed.
Lemma linspace_in a b n x : (2 <= n)%nat -> a <= b -> In x (linspace a b n) -> a <= x <= b.
Proof.
  intros Hn H Hx. rewrite linspace_map in Hx by exact Hn. apply in_map_iff in Hx. destruct Hx as (k & <- & Hk). apply in_seq in Hk.
  assert (0 < INR (n - 1)) by (apply lt_0_INR; lia). pose proof (pos_INR k). assert (INR k <= INR (n - 1)) by (apply le_INR; lia).
  assert (D : 0 <= (b - a) / INR (n - 1)) by (apply Rmult_le_pos; [lra|left; now apply Rinv_0_lt_compat]).
  assert (INR k * ((b - a) / INR (n - 1)) <= INR (n - 1) * ((b - a) / INR (n - 1))) by (now apply Rmult_le_compat_r).
  assert (INR (n - 1) * ((b - a) / INR (n - 1)) = b - a) by (field; lra).
  assert (0 <= INR k * ((b - a) / INR (n - 1))) by (now apply Rmult_le_pos). lra.
Qed.

(** ** Spectra of the two shapes *)
Definition energies (mu sigma : R) : list R := linspace (mu - 6 * sigma) (mu + 6 * sigma) 1000.
Lemma energies_length mu sigma : length (energies mu sigma) = 1000%nat.
Proof. apply linspace_length. Qed.
Lemma energies_increasing mu sigma : 0 < sigma -> increasing (energies mu sigma).
Proof. intro H. apply linspace_increasing; [lia|lra]. Qed.
Lemma energies_positive mu sigma e : 0 < sigma -> 6 * sigma < mu -> In e (energies mu sigma) -> 0 < e.
Proof. intros H1 H2 H. unfold energies in H. apply linspace_in in H; [lra|lia|lra]. Qed.
Lemma positive_map (f : R -> R) l : (forall x, In x l -> 0 < f x) -> positive (map f l).
Proof. intro H. apply Forall_forall. intros y Hy. apply in_map_iff in Hy. destruct Hy as (x & <- & Hx). now apply H. Qed.

Lemma scale_map (f : R -> R) c l : map (fun p => c * p) (map f l) = map (fun e => c * f e) l.
Proof. now rewrite map_map. Qed.
Lemma prepared_shape (f g : R -> R) l k : (forall e, In e l -> f e = k * g e) -> 0 < k -> (forall e, In e l -> 0 < g e) -> increasing l -> (2 <= length l)%nat ->
  exists c, 0 < c /\ prepare_energy_pdf l (map f l) = Ok (l, map (fun e => c * g e) l) /\ integral (combine l (map (fun e => c * g e) l)) = 1.
Proof.
  intros Hf Hk Hg Hi HL. assert (Hp : positive (map f l)). { apply positive_map. intros x Hx. rewrite Hf by exact Hx. apply Rmult_lt_0_compat; auto. }
  destruct (prepare_positive l (map f l) Hp Hi) as [I E]; [now rewrite map_length|now rewrite map_length|].
  exists (/ integral (combine l (map f l)) * k). split; [apply Rmult_lt_0_compat; [now apply Rinv_0_lt_compat|exact Hk]|].
  assert (Q : map (fun p => / integral (combine l (map f l)) * p) (map f l) = map (fun e => / integral (combine l (map f l)) * k * g e) l).
  { rewrite map_map. apply map_ext_in. intros e He. rewrite Hf by exact He. ring. }
  split; [rewrite E, Q; reflexivity|]. rewrite <- Q. apply integral_of_prepared. lra.
Qed.

Lemma gaussian_ok mu sigma : 0 < sigma ->
  exists c, 0 < c /\ gaussian_energy_spectrum mu sigma = Ok (energies mu sigma, map (fun e => c * gaussian mu sigma e) (energies mu sigma)) /\
    integral (combine (energies mu sigma) (map (fun e => c * gaussian mu sigma e) (energies mu sigma))) = 1.
Proof.
  intro H. unfold gaussian_energy_spectrum. fold (energies mu sigma).
  assert (S2 : 0 < sqrt (2 * PI)) by (apply sqrt_lt_R0; pose proof PI_RGT_0; lra).
  assert (N : 0 < sigma * sqrt (2 * PI)) by (now apply Rmult_lt_0_compat).
  rewrite np_div_ok by lra. cbn [bind]. set (k := 1 / (sigma * sqrt (2 * PI))). assert (Hk : 0 < k) by (unfold k; apply Rdiv_lt_0_compat; lra).
  rewrite (mapM_pure _ (fun e => k * exp (- (e - mu) ^ 2 / (2 * sigma ^ 2)))).
  2:{ intros e _. rewrite np_div_ok; [reflexivity|]. assert (0 < sigma ^ 2) by (apply pow_lt; lra). lra. }
  cbn [bind]. apply (prepared_shape _ (gaussian mu sigma) _ k).
  - intros e _. unfold gaussian. f_equal. f_equal. unfold Rdiv. ring.
  - exact Hk.
  - intros; apply exp_pos.
  - now apply energies_increasing.
  - rewrite energies_length. lia.
Qed.

Lemma alpha_range mu sigma : 0 < sigma -> 6 * sigma < mu -> 0 < m_gaussian_alpha mu sigma < 1.
Proof.
  intros H1 H2. unfold m_gaussian_alpha. assert (Q : 0 < sigma / mu) by (apply Rdiv_lt_0_compat; lra).
  assert (Q2 : sigma / mu < 1 / 6). { apply (Rmult_lt_reg_r mu); [lra|]. unfold Rdiv. rewrite Rmult_assoc, Rinv_l by lra. lra. }
  set (q := sigma / mu) in *. nra.
Qed.
Lemma sqrt_above x : 0 < x < 1 -> x < sqrt x < 1.
Proof.
  intro H. assert (0 < sqrt x) by (apply sqrt_lt_R0; lra). assert (S1 : sqrt x * sqrt x = x) by (apply sqrt_sqrt; lra). nra.
Qed.
Lemma m_gaussian_ok mu sigma : 0 < sigma -> 6 * sigma < mu ->
  exists c, 0 < c /\ modified_gaussian_energy_spectrum mu sigma = Ok (energies mu sigma, map (fun e => c * m_gaussian mu sigma e) (energies mu sigma)) /\
    integral (combine (energies mu sigma) (map (fun e => c * m_gaussian mu sigma e) (energies mu sigma))) = 1.
Proof.
  intros H1 H2. pose proof (alpha_range mu sigma H1 H2) as A. unfold modified_gaussian_energy_spectrum. fold (energies mu sigma).
  rewrite np_div_ok by lra. cbn [bind]. cbv zeta.
  replace (1.0 - 1.5 * (sigma / mu) ^ 2) with (m_gaussian_alpha mu sigma) by (unfold m_gaussian_alpha; lra).
  rewrite np_sqrt_ok by lra. cbn [bind]. pose proof (sqrt_above _ A) as SA.
  fold (m_gaussian_peak mu sigma). set (eb := m_gaussian_peak mu sigma).
  replace (4.0 / 3.0 * mu ^ 2 * (sqrt (m_gaussian_alpha mu sigma) - m_gaussian_alpha mu sigma)) with (m_gaussian_width2 mu sigma) by (unfold m_gaussian_width2; lra).
  assert (Eb : 0 < eb) by (unfold eb, m_gaussian_peak; apply Rmult_lt_0_compat; lra).
  assert (W : 0 < m_gaussian_width2 mu sigma). { unfold m_gaussian_width2. assert (0 < mu ^ 2) by (apply pow_lt; lra). apply Rmult_lt_0_compat; lra. }
  rewrite (mapM_pure _ (fun e => exp (-2.0 * eb * (sqrt e - sqrt eb) ^ 2 / m_gaussian_width2 mu sigma))).
  2:{ intros e He. apply energies_positive in He; [|exact H1|exact H2]. rewrite !np_sqrt_ok by lra. cbn [bind]. now rewrite np_div_ok by lra. }
  cbn [bind]. apply (prepared_shape _ (m_gaussian mu sigma) _ 1); try lra.
  - intros e _. rewrite Rmult_1_l. unfold m_gaussian. fold eb. f_equal. replace (-2.0) with (-2) by lra. field. lra.
  - intros; apply exp_pos.
  - now apply energies_increasing.
  - rewrite energies_length. lia.
Qed.

(** ** Ballabio fits *)
Lemma Rpower_le_sqrt T x : 0 < T -> 0 <= x <= / 2 -> Rpower T x <= 1 + sqrt T.
Proof.
  intros HT Hx. destruct (Rle_lt_dec 1 T) as [G|G].
  - assert (Rpower T x <= Rpower T (/ 2)) by (apply Rle_Rpower; lra). rewrite Rpower_sqrt in H by exact HT. lra.
  - pose proof (sqrt_pos T). assert (L : ln T <= 0) by (rewrite <- ln_1; left; apply ln_increasing; lra).
    unfold Rpower. assert (x * ln T <= 0) by nra. assert (exp (x * ln T) <= exp 0) by (destruct (Req_dec (x * ln T) 0) as [->|]; [lra|left; apply exp_increasing; lra]).
    rewrite exp_0 in H1. lra.
Qed.
Lemma Rpower_le_id T x : 0 < T -> 0 <= x <= 1 -> Rpower T x <= 1 + T.
Proof.
  intros HT Hx. destruct (Rle_lt_dec 1 T) as [G|G].
  - assert (Rpower T x <= Rpower T 1) by (apply Rle_Rpower; lra). rewrite Rpower_1 in H by exact HT. lra.
  - assert (L : ln T <= 0) by (rewrite <- ln_1; left; apply ln_increasing; lra).
    unfold Rpower. assert (x * ln T <= 0) by nra. assert (exp (x * ln T) <= exp 0) by (destruct (Req_dec (x * ln T) 0) as [->|]; [lra|left; apply exp_increasing; lra]).
    rewrite exp_0 in H0. lra.
Qed.
Lemma Rpower_gt0 T x : 0 < Rpower T x. Proof. apply exp_pos. Qed.
Lemma fit_ok c T : 0 < T -> 1 + a2 c * Rpower T (a3 c) <> 0 -> fit c T = Ok (a1 c / (1 + a2 c * Rpower T (a3 c)) * Rpower T (2 / 3) + a4 c * T).
Proof. intros HT H. unfold fit. rewrite !np_pow_pos by exact HT. cbn [bind]. rewrite np_div_ok by exact H. reflexivity. Qed.

Definition spectrum_of (r : reaction) : ballabio := match r with DT => ballabio_DT | _ => ballabio_DD end.
Lemma dd_den T : 0 < T <= 500 -> 0 < 1 - 0.040729 * Rpower T 0.47.
Proof.
  intros H. pose proof (Rpower_le_sqrt T 0.47 ltac:(lra) ltac:(lra)) as P.
  assert (sqrt T <= 22.5). { apply Rsqr_incr_0_var; [|lra]. rewrite Rsqr_sqrt by lra. unfold Rsqr. lra. } lra.
Qed.
Lemma mean_ok r T : (r = DT \/ r = DDn) -> 0 < T -> (r = DDn -> T <= 500) ->
  mean_energy (spectrum_of r) T = Ok (published_mean r T) /\ std_deviation (spectrum_of r) T = Ok (published_sigma r T) /\
  nominal r < published_mean r T /\ 0 < published_sigma r T.
Proof.
  intros Hr HT HD. assert (Sq : 0 < sqrt T) by (now apply sqrt_lt_R0). pose proof (Rpower_gt0 T (2 / 3)) as P23.
  assert (FP : forall q s a t, 0 < q -> 0 < s -> 0 < a -> 0 < t -> 0 < q * s + a * t).
  { intros q s a t A B C D. assert (0 < q * s) by (now apply Rmult_lt_0_compat). assert (0 < a * t) by (now apply Rmult_lt_0_compat). lra. }
  destruct Hr as [-> | ->]; cbn [spectrum_of published_mean published_sigma nominal].
  - pose proof (Rpower_gt0 T 1.84) as Q1. pose proof (Rpower_gt0 T 1.78) as Q2.
    unfold mean_energy, std_deviation, ballabio_DT. cbn [energy_shift_coeffs width_correction_coeffs energy_0 omega_0].
    rewrite !fit_ok by (cbn [a2 a3]; lra). cbn [bind a1 a2 a3 a4]. rewrite np_sqrt_ok by lra. cbn [bind].
    rewrite np_div_ok by (unfold two_sqrt_2ln2; lra). unfold two_sqrt_2ln2. replace 14021.0 with 14021 by lra.
    split; [reflexivity|]. split; [reflexivity|]. split.
    + assert (0 < 5.30509 / (1 + 2.4736e-3 * Rpower T 1.84)) by (apply Rdiv_lt_0_compat; lra). pose proof (FP _ _ 1.3818 T H P23 ltac:(lra) HT). lra.
    + assert (0 < 5.1068e-4 / (1 + 7.6223e-3 * Rpower T 1.78)) by (apply Rdiv_lt_0_compat; lra).
      pose proof (FP _ _ 8.7691e-5 T H P23 ltac:(lra) HT). apply Rdiv_lt_0_compat; [|lra]. apply Rmult_lt_0_compat; [apply Rmult_lt_0_compat; lra|exact Sq].
  - specialize (HD eq_refl). pose proof (dd_den T ltac:(lra)) as Q1. pose proof (Rpower_gt0 T 0.49) as Q2.
    unfold mean_energy, std_deviation, ballabio_DD. cbn [energy_shift_coeffs width_correction_coeffs energy_0 omega_0].
    rewrite !fit_ok by (cbn [a2 a3]; lra). cbn [bind a1 a2 a3 a4]. rewrite np_sqrt_ok by lra. cbn [bind].
    rewrite np_div_ok by (unfold two_sqrt_2ln2; lra). unfold two_sqrt_2ln2. replace 2.4495e3 with 2449.5 by lra.
    replace (1 + -0.040729 * Rpower T 0.47) with (1 - 0.040729 * Rpower T 0.47) by lra.
    split; [reflexivity|]. split; [reflexivity|]. split.
    + assert (0 < 4.69515 / (1 - 0.040729 * Rpower T 0.47)) by (apply Rdiv_lt_0_compat; lra). pose proof (FP _ _ 0.81844 T H P23 ltac:(lra) HT). lra.
    + assert (0 < 1.7013e-3 / (1 + 0.16888 * Rpower T 0.49)) by (apply Rdiv_lt_0_compat; lra).
      pose proof (FP _ _ 7.9460e-4 T H P23 ltac:(lra) HT). apply Rdiv_lt_0_compat; [|lra]. apply Rmult_lt_0_compat; [apply Rmult_lt_0_compat; lra|exact Sq].
Qed.
Lemma div_le_num a d : 0 <= a -> 1 <= d -> 0 <= a / d <= a.
Proof.
  intros Ha Hd. split; [apply Rmult_le_pos; [lra|left; apply Rinv_0_lt_compat; lra]|].
  apply (Rmult_le_reg_r d); [lra|]. unfold Rdiv. rewrite Rmult_assoc, Rinv_l by lra. nra.
Qed.
Lemma grid_is_positive r T : (r = DT \/ r = DDn) -> 0 < T <= 40 -> 6 * published_sigma r T < nominal r.
Proof.
  intros Hr HT. pose proof (Rpower_gt0 T (2 / 3)) as P23. pose proof (Rpower_le_id T (2 / 3) ltac:(lra) ltac:(lra)) as P23'.
  assert (Sq : 0 < sqrt T <= 6.4). { split; [apply sqrt_lt_R0; lra|]. apply Rsqr_incr_0_var; [|lra]. rewrite Rsqr_sqrt by lra. unfold Rsqr. lra. }
  assert (K : forall om w s c m, 0 < om -> 0 <= w <= c -> 0 < s <= 6.4 -> 6 * (om * (1 + c) * 6.4 / 2.3548200450309493) < m -> 6 * (om * (1 + w) * s / 2.3548200450309493) < m).
  { intros om w s c m H1 H2 H3 H4. assert ((1 + w) * s <= (1 + c) * 6.4) by (apply Rmult_le_compat; lra).
    assert (om * ((1 + w) * s) <= om * ((1 + c) * 6.4)) by (apply Rmult_le_compat_l; lra). lra. }
  assert (F : forall a d b, 0 <= a -> 1 <= d -> 0 <= b -> 0 <= a / d * Rpower T (2 / 3) + b * T <= a * 41 + b * 40).
  { intros a d b Ha Hd Hb. destruct (div_le_num a d Ha Hd) as [D1 D2].
    assert (0 <= a / d * Rpower T (2 / 3)) by (apply Rmult_le_pos; lra). assert (a / d * Rpower T (2 / 3) <= a * 41) by (apply Rmult_le_compat; lra).
    assert (0 <= b * T) by (apply Rmult_le_pos; lra). assert (b * T <= b * 40) by (apply Rmult_le_compat_l; lra). lra. }
  destruct Hr as [-> | ->]; cbn [published_sigma nominal].
  - pose proof (Rpower_gt0 T 1.78). apply (K _ _ _ (5.1068e-4 * 41 + 8.7691e-5 * 40)); [lra| |lra|lra]. apply F; lra.
  - pose proof (Rpower_gt0 T 0.49). apply (K _ _ _ (1.7013e-3 * 41 + 7.9460e-4 * 40)); [lra| |lra|lra]. apply F; lra.
Qed.

(** ** The T-T table *)
Definition dec_ltb (a b : dec) : bool := match a, b with V m e, V n f => Z.ltb (m * 10 ^ Z.of_N f) (n * 10 ^ Z.of_N e) end.
Fixpoint dec_sorted (l : list dec) : bool :=
  match l with a :: ((b :: _) as r) => dec_ltb a b && dec_sorted r | _ => true end.
Definition table_check (rows : list (dec * list dec)) : bool :=
  Nat.eqb (length rows) 500 && dec_sorted (map fst rows) &&
  forallb (fun row => Nat.eqb (length (snd row)) 40 && forallb (fun d => match d with V m _ => Z.ltb 0 m end) (snd row)) rows.
Lemma table_checked : table_check tt_rows = true.
Proof. vm_compute. reflexivity. Qed.

Lemma ten_pow e : IZR (10 ^ Z.of_N e) = 10 ^ N.to_nat e.
Proof. rewrite <- (N2Nat.id e) at 1. rewrite nat_N_Z, <- pow_IZR. reflexivity. Qed.
Lemma decimal_val d : decimal d = dec_val d.
Proof. destruct d as [m e]. unfold decimal, dec_val. now rewrite ten_pow. Qed.
Lemma dec_ltb_lt a b : dec_ltb a b = true -> decimal a < decimal b.
Proof.
  destruct a as [m e], b as [n f]. unfold dec_ltb, decimal. intro H. apply Z.ltb_lt, IZR_lt in H. rewrite !mult_IZR in H.
  assert (P : forall x, 0 < IZR (10 ^ Z.of_N x)) by (intro x; rewrite ten_pow; apply pow_lt; lra).
  pose proof (P e) as Pe. pose proof (P f) as Pf. set (A := IZR (10 ^ Z.of_N e)) in *. set (B := IZR (10 ^ Z.of_N f)) in *.
  apply (Rmult_lt_reg_r (A * B)); [now apply Rmult_lt_0_compat|].
  replace (IZR m / A * (A * B)) with (IZR m * B) by (field; lra). replace (IZR n / B * (A * B)) with (IZR n * A) by (field; lra). exact H.
Qed.
Lemma dec_pos m e : (0 < m)%Z -> 0 < decimal (V m e).
Proof. intro H. unfold decimal. apply Rdiv_lt_0_compat; [now apply IZR_lt|]. rewrite ten_pow. apply pow_lt; lra. Qed.
Lemma sorted_adjacent (l : list R) : (forall i a b, nth_error l i = Some a -> nth_error l (S i) = Some b -> a < b) -> increasing l.
Proof.
  intro H. apply Sorted_StronglySorted; [intros x y z; apply Rlt_trans|]. induction l as [|x l IH]; constructor.
  - apply IH. intros i a b Ha Hb. exact (H (S i) a b Ha Hb).
  - destruct l as [|y l]; constructor. exact (H 0%nat x y eq_refl eq_refl).
Qed.
Lemma dec_sorted_adjacent l : dec_sorted l = true -> forall i a b, nth_error l i = Some a -> nth_error l (S i) = Some b -> decimal a < decimal b.
Proof.
  induction l as [|x l IH]; intros H i a b Ha Hb; [destruct i; discriminate|]. destruct l as [|y l]; [destruct i; [discriminate|destruct i; discriminate]|].
  change (dec_ltb x y && dec_sorted (y :: l) = true) in H. apply andb_prop in H. destruct H as [H1 H2]. destruct i as [|i].
  - cbn in Ha, Hb. injection Ha as <-. injection Hb as <-. now apply dec_ltb_lt.
  - apply (IH H2 i a b); [exact Ha|exact Hb].
Qed.

Lemma tt_energy_table : tt_energy tt_shipped = table_energies.
Proof. unfold tt_shipped, make_tt_data, table_energies. cbn [tt_energy]. apply map_ext. intro row. rewrite decimal_val. ring. Qed.
Lemma table_facts : length tt_rows = 500%nat /\ increasing table_energies /\
  forall row, In row tt_rows -> length (snd row) = 40%nat /\ forall d, In d (snd row) -> 0 < decimal d.
Proof.
  pose proof table_checked as C. unfold table_check in C. rewrite !andb_true_iff in C. destruct C as [[C1 C2] C3].
  split; [now apply Nat.eqb_eq|]. split.
  - apply sorted_adjacent. intros i a b Ha Hb. unfold table_energies in Ha, Hb. rewrite nth_error_map in Ha, Hb.
    destruct (nth_error tt_rows i) as [ra|] eqn:Ea; [|discriminate]. destruct (nth_error tt_rows (S i)) as [rb|] eqn:Eb; [|discriminate].
    cbn in Ha, Hb. injection Ha as <-. injection Hb as <-.
    assert (decimal (fst ra) < decimal (fst rb)); [|lra]. apply (dec_sorted_adjacent _ C2 i); rewrite nth_error_map; [now rewrite Ea|now rewrite Eb].
  - intros row Hr. rewrite forallb_forall in C3. specialize (C3 row Hr). apply andb_prop in C3. destruct C3 as [L P].
    split; [now apply Nat.eqb_eq|]. intros [m e] Hd. rewrite forallb_forall in P. specialize (P _ Hd). cbn in P. apply dec_pos. now apply Z.ltb_lt.
Qed.

Lemma combine_sorted (x y : list R) : increasing x -> StronglySorted ltx (combine x y).
Proof.
  intro H. revert y. induction H as [|a x Hs IH Hf]; intros [|b y]; cbn [combine]; constructor; [apply IH|].
  apply Forall_forall. intros [u v] Hu. apply in_combine_l in Hu. rewrite Forall_forall in Hf. unfold ltx. cbn. now apply Hf.
Qed.
Lemma sorted_nodup t : StronglySorted ltx t -> distinct_radii t.
Proof.
  intro H. unfold distinct_radii. induction H as [|p t Hs IH Hf]; cbn; constructor; [|exact IH].
  intro Hi. apply in_map_iff in Hi. destruct Hi as (q & E & Hq). rewrite Forall_forall in Hf. specialize (Hf q Hq). unfold ltx in Hf. lra.
Qed.
Lemma interp_node x y v w : increasing x -> In (v, w) (combine x y) -> interp1d_call (combine x y) v = Ok w.
Proof.
  intros H Hi. pose proof (combine_sorted x y H) as S. apply (ir_at_node (combine x y)) with (v := v); [now apply sorted_nodup|exact Hi|now apply interp1d_call_char].
Qed.
Lemma interp_between x y p q v : increasing x -> neighbours (combine x y) p q -> fst p < v < fst q -> interp1d_call (combine x y) v = Ok (line p q v).
Proof.
  intros H Hn Hv. pose proof (combine_sorted x y H) as S. apply (ir_between (combine x y)) with (v := v); [now apply sorted_nodup|exact Hn|exact Hv|now apply interp1d_call_char].
Qed.
Lemma nth_combine {A B} (x : list A) (y : list B) j a b : nth_error x j = Some a -> nth_error y j = Some b -> In (a, b) (combine x y).
Proof.
  revert y j. induction x as [|u x IH]; intros [|v y] [|j] Ha Hb; try discriminate; cbn in *.
  - left. congruence.
  - right. eapply IH; eauto.
Qed.
Lemma Forall2_combine {A B} (P : A -> B -> Prop) l l' : length l = length l' -> (forall a b, In (a, b) (combine l l') -> P a b) -> Forall2 P l l'.
Proof.
  revert l'. induction l as [|a l IH]; intros [|b l'] HL H; try discriminate; constructor.
  - apply H. now left.
  - apply IH; [cbn in HL; lia|]. intros; apply H. now right.
Qed.

(** Temperatures. *)
Lemma temps_nth j : (j < 40)%nat -> nth_error (linspace 1.0 20.0 40) j = Some (table_temperature j).
Proof.
  intro H. rewrite linspace_map by lia. rewrite nth_error_map, (nth_error_nth' _ 0%nat) by (rewrite seq_length; exact H).
  rewrite seq_nth by exact H. cbn [option_map plus]. f_equal. unfold table_temperature. replace (INR (40 - 1)) with 39 by (cbn; ring). lra.
Qed.
Lemma temps_increasing : increasing (linspace 1.0 20.0 40).
Proof. apply linspace_increasing; [lia|lra]. Qed.
Lemma temp_step i j : (i < j)%nat -> table_temperature i < table_temperature j.
Proof. intro H. unfold table_temperature. apply lt_INR in H. lra. Qed.

Definition mix (w : R) (x y : list R) : list R := map (fun p => (1 - w) * fst p + w * snd p) (combine x y).
(** One row interpolated in temperature. *)
Lemma row_interp j row T : (j < 39)%nat -> length row = 40%nat -> table_temperature j <= T <= table_temperature (S j) ->
  let w := (T - table_temperature j) / (table_temperature (S j) - table_temperature j) in
  interp1d_call (combine (linspace 1.0 20.0 40) row) T = Ok ((1 - w) * nth j row 0 + w * nth (S j) row 0).
Proof.
  intros Hj HL HT w. pose proof temps_increasing as TI. pose proof (temp_step j (S j) ltac:(lia)) as St.
  assert (Na : In (table_temperature j, nth j row 0) (combine (linspace 1.0 20.0 40) row)).
  { apply nth_combine with j; [apply temps_nth; lia|apply nth_error_nth'; lia]. }
  assert (Nb : In (table_temperature (S j), nth (S j) row 0) (combine (linspace 1.0 20.0 40) row)).
  { apply nth_combine with (S j); [apply temps_nth; lia|apply nth_error_nth'; lia]. }
  destruct (Req_dec T (table_temperature j)) as [E|E].
  { rewrite E. rewrite (interp_node _ _ _ _ TI Na). f_equal. unfold w. rewrite E. field. lra. }
  destruct (Req_dec T (table_temperature (S j))) as [E'|E'].
  { rewrite E'. rewrite (interp_node _ _ _ _ TI Nb). f_equal. unfold w. rewrite E'. field. lra. }
  rewrite (interp_between _ _ (table_temperature j, nth j row 0) (table_temperature (S j), nth (S j) row 0) _ TI).
  - f_equal. unfold line; cbn [fst snd]. fold w. ring.
  - split; [exact Na|]. split; [exact Nb|]. split; [exact St|]. intros [u v] Hu. cbn [fst]. apply in_combine_l in Hu.
    apply In_nth_error in Hu. destruct Hu as [k Hk]. assert (k < 40)%nat. { rewrite <- (linspace_length 1.0 20.0 40). apply nth_error_Some. congruence. }
    rewrite temps_nth in Hk by assumption. injection Hk as <-. intros [G1 G2].
    destruct (Nat.le_gt_cases k j) as [L|L].
    + destruct (Nat.eq_dec k j) as [->|N]; [lra|]. pose proof (temp_step k j ltac:(lia)). lra.
    + destruct (Nat.eq_dec k (S j)) as [->|N]; [lra|]. pose proof (temp_step (S j) k ltac:(lia)). lra.
  - cbn [fst]. lra.
Qed.
Lemma mapM_map {A B C} (f : B -> res C) (g : A -> B) l : mapM f (map g l) = mapM (fun a => f (g a)) l.
Proof. induction l as [|a l IH]; [reflexivity|]. cbn [map mapM]. now rewrite IH. Qed.
Lemma nth_map_def {A} (f : A -> R) l j d : nth j (map f l) 0 = if Nat.ltb j (length l) then f (nth j l d) else 0.
Proof.
  revert j. induction l as [|x l IH]; intros [|j]; cbn; auto. apply IH.
Qed.
Lemma column_interp j T : (j < 39)%nat -> table_temperature j <= T <= table_temperature (S j) ->
  let w := (T - table_temperature j) / (table_temperature (S j) - table_temperature j) in
  mapM (fun row => interp1d_call (combine (linspace 1.0 20.0 40) row) T) (tt_spectra tt_shipped) = Ok (mix w (table_spectrum j) (table_spectrum (S j))).
Proof.
  intros Hj HT w. unfold tt_shipped, make_tt_data. cbn [tt_spectra]. rewrite mapM_map.
  destruct table_facts as (_ & _ & F).
  rewrite (mapM_pure _ (fun row => (1 - w) * (decimal (nth j (snd row) (V 0 0)) / 1000) + w * (decimal (nth (S j) (snd row) (V 0 0)) / 1000))).
  - apply f_equal. unfold mix, table_spectrum. generalize tt_rows. clear. intro l. induction l as [|row l IH]; [reflexivity|]. cbn [map combine fst snd]. now rewrite IH.
  - intros row Hr. destruct (F row Hr) as [L _]. rewrite (row_interp j) by (try exact Hj; try exact HT; now rewrite map_length). fold w.
    rewrite !(nth_map_def _ _ _ (V 0 0)), L. destruct (Nat.ltb_spec j 40); [|lia]. destruct (Nat.ltb_spec (S j) 40); [|lia]. now rewrite !decimal_val.
Qed.
Lemma table_positive j : (j < 40)%nat -> positive (table_spectrum j).
Proof.
  intro H. destruct table_facts as (_ & _ & F). apply Forall_forall. intros x Hx. apply in_map_iff in Hx. destruct Hx as (row & <- & Hr).
  destruct (F row Hr) as [L P]. assert (0 < decimal (nth j (snd row) (V 0 0))) by (apply P, nth_In; lia). lra.
Qed.
Lemma table_spectrum_length j : length (table_spectrum j) = 500%nat.
Proof. unfold table_spectrum. rewrite map_length. apply table_facts. Qed.
Lemma table_energies_length : length table_energies = 500%nat.
Proof. unfold table_energies. rewrite map_length. apply table_facts. Qed.
Lemma mix_length w x y : length (mix w x y) = Nat.min (length x) (length y).
Proof. unfold mix. now rewrite map_length, combine_length. Qed.
Lemma mix_positive w x y : 0 <= w <= 1 -> positive x -> positive y -> positive (mix w x y).
Proof.
  intros Hw Hx Hy. apply Forall_forall. intros v Hv. apply in_map_iff in Hv. destruct Hv as ([a b] & <- & Hab). cbn [fst snd].
  pose proof (in_combine_l _ _ _ _ Hab) as Ha. pose proof (in_combine_r _ _ _ _ Hab) as Hb. unfold positive in *. rewrite Forall_forall in Hx, Hy.
  specialize (Hx a Ha). specialize (Hy b Hb). nra.
Qed.
Lemma grid_at_nodes d T col : mapM (fun row => interp1d_call (combine (tt_temps d) row) T) (tt_spectra d) = Ok col ->
  increasing (tt_energy d) -> length (tt_energy d) = length col -> mapM (fun e => grid_interp2 d e T) (tt_energy d) = Ok col.
Proof.
  intros E Hi HL. apply mapM_Ok_Forall2. apply Forall2_combine; [exact HL|]. intros a b Hab. unfold grid_interp2. rewrite E. cbn [bind].
  now apply interp_node.
Qed.
Definition clamped (T : R) : R := Rmin (Rmax T 1) 20.
Lemma tt_call_shipped T j : (j < 39)%nat -> table_temperature j <= clamped T <= table_temperature (S j) ->
  let w := (clamped T - table_temperature j) / (table_temperature (S j) - table_temperature j) in
  tt_call tt_shipped T = Ok (table_energies, mix w (table_spectrum j) (table_spectrum (S j)),
    if Rltb 1 T && Rltb T 20 then [] else [WTTClip T]).
Proof.
  intros Hj HT w. unfold tt_call. replace 1.0 with 1 by lra. replace 20.0 with 20 by lra.
  assert (E : (if Rltb 1 T && Rltb T 20 then T else clip 1 20 T) = clamped T).
  { destruct (Rltb_spec 1 T), (Rltb_spec T 20); cbn [andb]; try reflexivity. unfold clamped. rewrite Rmax_left, Rmin_left by lra. reflexivity. }
  rewrite E. rewrite (grid_at_nodes tt_shipped (clamped T) (mix w (table_spectrum j) (table_spectrum (S j)))).
  - cbn [bind]. now rewrite tt_energy_table.
  - exact (column_interp j (clamped T) Hj HT).
  - rewrite tt_energy_table. apply table_facts.
  - rewrite tt_energy_table, mix_length, !table_spectrum_length. apply table_energies_length.
Qed.
Lemma bracket (f : nat -> R) n x : f 0%nat <= x <= f (S n) -> exists j, (j <= n)%nat /\ f j <= x <= f (S j).
Proof.
  induction n as [|n IH]; intro H; [exists 0%nat; split; [lia|exact H]|].
  destruct (Rle_lt_dec x (f (S n))) as [L|L].
  - destruct IH as (j & Hj & B); [lra|]. exists j. split; [lia|exact B].
  - exists (S n). split; [lia|lra].
Qed.
Lemma clamped_range T : 1 <= clamped T <= 20.
Proof. exact (clip_range 1 20 T ltac:(lra)). Qed.
Lemma clamped_bracket T : exists j, (j < 39)%nat /\ table_temperature j <= clamped T <= table_temperature (S j).
Proof.
  destruct (bracket table_temperature 38 (clamped T)) as (j & Hj & B).
  - pose proof (clamped_range T). unfold table_temperature. cbn [INR]. replace (INR 39) with 39 by (cbn; ring). lra.
  - exists j. split; [lia|exact B].
Qed.
