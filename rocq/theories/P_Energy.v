(** Property theorems C45-C50 (neutron energy spectra). *)
From Coq Require Import Sorting.Sorted.
From Verif Require Import Base Reactions Profile SpecProfile ProfileProofs SpectraData Energy SpecEnergy EnergyProofs.
Open Scope R_scope.

Lemma Forall2_length {A B} (P : A -> B -> Prop) l l' : Forall2 P l l' -> length l = length l'.
Proof. induction 1; cbn; congruence. Qed.
(** C45: whatever is returned is a contiguous run of the input, scaled to integral 1. *)
Theorem C45_prepared_is_normalised : forall energy pdf e p, length energy = length pdf -> prepare_energy_pdf energy pdf = Ok (e, p) ->
  exists e1 e3 p1 p2 p3 c, energy = e1 ++ e ++ e3 /\ pdf = p1 ++ p2 ++ p3 /\
    length e1 = length p1 /\ length e = length p2 /\ length e3 = length p3 /\
    c <> 0 /\ p = map (fun x => c * x) p2 /\ integral (combine e p) = 1.
Proof.
  intros energy pdf e p HL E. destruct (trim_total pdf) as [Z|(i & m & j & T)].
  - unfold prepare_energy_pdf in E. rewrite (all_zero_mask _ Z) in E. discriminate.
  - destruct (trimmed_split energy pdf i m j T HL) as (e1 & e2 & e3 & -> & L1 & L2 & L3).
    rewrite (prepare_trimmed e1 e2 e3 pdf i m j T L1 L2 L3) in E. destruct (Reqb_spec (integral (combine e2 m)) 0) as [Z|Z]; [discriminate|].
    injection E as <- <-. exists e1, e3, (repeat 0 i), m, (repeat 0 j), (/ integral (combine e2 m)). rewrite !repeat_length.
    destruct T as (T & _). repeat split; auto; [now apply Rinv_neq_0_compat|now apply integral_of_prepared].
Qed.
Print Assumptions C45_prepared_is_normalised.

(** Non-negative densities on increasing energies with two non-zero samples can always be normalised. *)
Theorem C45_always_normalisable : forall energy pdf i j, length energy = length pdf -> increasing energy -> nonneg pdf ->
  (i < j)%nat -> nth i pdf 0 <> 0 -> nth j pdf 0 <> 0 ->
  exists e p, prepare_energy_pdf energy pdf = Ok (e, p) /\ nonneg p /\ increasing e.
Proof.
  intros energy pdf i j HL Hi Hp Hij Ni Nj. destruct (trim_total pdf) as [Z|(a & m & b & T)].
  { exfalso. apply Ni. rewrite Forall_forall in Z. destruct (nth_in_or_default i pdf 0) as [H|H]; [now apply Z|exact H]. }
  destruct (trimmed_split energy pdf a m b T HL) as (e1 & e2 & e3 & -> & L1 & L2 & L3).
  assert (Hm : nonneg m). { destruct T as (-> & _). unfold nonneg in Hp. rewrite !Forall_app in Hp. tauto. }
  assert (Hi2 : increasing e2).
  { clear - Hi. unfold increasing in *. induction e1 as [|x e1 IH]; cbn [app] in Hi; [|inversion Hi; auto].
    induction e2 as [|y e2 IH]; [constructor|]. cbn [app] in Hi. inversion Hi as [|? ? Hs Hf]; subst. constructor; [now apply IH|]. rewrite Forall_app in Hf. tauto. }
  assert (L : (2 <= length m)%nat).
  { destruct T as (E & _). clear - E Ni Nj Hij. subst pdf.
    assert (Z : forall k, nth k (repeat 0 a ++ m ++ repeat 0 b) 0 <> 0 -> (a <= k < a + length m)%nat).
    { intros k Hk. destruct (Nat.lt_ge_cases k a) as [G|G].
      - exfalso. apply Hk. rewrite app_nth1 by (now rewrite repeat_length). apply nth_repeat.
      - split; [exact G|]. destruct (Nat.lt_ge_cases k (a + length m)) as [G2|G2]; [exact G2|]. exfalso. apply Hk.
        rewrite app_nth2, app_nth2 by (rewrite ?repeat_length; lia). apply nth_repeat. }
    apply Z in Ni, Nj. lia. }
  assert (I : 0 < integral (combine e2 m)). { apply integral_pos; auto. apply T. }
  rewrite (prepare_trimmed e1 e2 e3 pdf a m b T L1 L2 L3). destruct (Reqb_spec (integral (combine e2 m)) 0); [lra|].
  eexists _, _. split; [reflexivity|]. split; [|exact Hi2]. apply Forall_forall. intros x Hx. apply in_map_iff in Hx. destruct Hx as (y & <- & Hy).
  unfold nonneg in Hm. rewrite Forall_forall in Hm. apply Rmult_le_pos; [left; now apply Rinv_0_lt_compat|now apply Hm].
Qed.
Print Assumptions C45_always_normalisable.

(** Every spectrum the library returns is normalised. *)
Theorem C45_energy_spectrum_normalised : forall d T r meth e p w, energy_spectrum d T r meth = Ok (Some (e, p), w) ->
  length e = length p /\ integral (combine e p) = 1.
Proof.
  intros d T r meth e p w.
  assert (P : forall energy pdf, length energy = length pdf -> prepare_energy_pdf energy pdf = Ok (e, p) -> length e = length p /\ integral (combine e p) = 1).
  { intros energy pdf HL E. destruct (C45_prepared_is_normalised energy pdf e p HL E) as (? & ? & ? & p2 & ? & c & _ & _ & _ & L & _ & _ & -> & I).
    split; [now rewrite map_length|exact I]. }
  assert (D : forall r' w', data_spectrum d r' T = Ok ((e, p), w') -> length e = length p /\ integral (combine e p) = 1).
  { intros r' w' E. destruct r'; try discriminate. cbn [data_spectrum] in E. destruct (tt_call d T) as [[[e0 pdf] w0]| |] eqn:Et; cbn [bind fst snd] in E; try discriminate.
    destruct (prepare_energy_pdf e0 pdf) as [[e' p']| |] eqn:Ep; cbn [bind] in E; try discriminate. injection E as -> -> _.
    apply (P e0 pdf); [|exact Ep]. unfold tt_call in Et. destruct (mapM _ (tt_energy d)) as [pdf'| |] eqn:Em; cbn [bind] in Et; try discriminate.
    injection Et as <- <- _. apply mapM_Ok_Forall2 in Em. now apply Forall2_length in Em. }
  assert (B : forall b m, ballabio_energy_spectrum b T m = Ok (e, p) -> length e = length p /\ integral (combine e p) = 1).
  { intros b m E. unfold ballabio_energy_spectrum in E. destruct (mean_energy b T) as [mu| |]; cbn [bind] in E; try discriminate.
    destruct (std_deviation b T) as [sg| |]; cbn [bind] in E; try discriminate. destruct m; try discriminate.
    - unfold gaussian_energy_spectrum in E. fold (energies mu sg) in E. destruct (np_div 1 _); cbn [bind] in E; try discriminate.
      destruct (mapM _ (energies mu sg)) as [pdf| |] eqn:Em; cbn [bind] in E; try discriminate. apply (P (energies mu sg) pdf); [|exact E].
      apply mapM_Ok_Forall2 in Em. now apply Forall2_length in Em.
    - unfold modified_gaussian_energy_spectrum in E. fold (energies mu sg) in E. destruct (np_div sg mu); cbn [bind] in E; try discriminate.
      destruct (np_sqrt _); cbn [bind] in E; try discriminate.
      destruct (mapM _ (energies mu sg)) as [pdf| |] eqn:Em; cbn [bind] in E; try discriminate. apply (P (energies mu sg) pdf); [|exact E].
      apply mapM_Ok_Forall2 in Em. now apply Forall2_length in Em. }
  assert (O : forall m, energy_spectrum_once d T r m = Ok (Some (e, p), w) -> length e = length p /\ integral (combine e p) = 1).
  { intros m E. destruct m; cbn [energy_spectrum_once] in E; try discriminate.
    - destruct (data_spectrum d r T) as [[[e' p'] w']| |] eqn:Ed; cbn [bind fst snd] in E; try discriminate. injection E as -> -> _. eauto.
    - destruct (ballabio_spectrum r) as [b|].
      + destruct (ballabio_energy_spectrum b T SGaussian) as [[e' p']| |] eqn:Ed; cbn [bind] in E; try discriminate. injection E as -> -> _. eauto.
      + destruct (data_spectrum d r T) as [[[e' p'] w']| |] eqn:Ed; cbn [bind fst snd] in E; try discriminate. injection E as -> -> _. eauto.
    - destruct (ballabio_spectrum r) as [b|].
      + destruct (ballabio_energy_spectrum b T SMGaussian) as [[e' p']| |] eqn:Ed; cbn [bind] in E; try discriminate. injection E as -> -> _. eauto.
      + destruct (data_spectrum d r T) as [[[e' p'] w']| |] eqn:Ed; cbn [bind fst snd] in E; try discriminate. injection E as -> -> _. eauto. }
  destruct meth; try apply O. destruct r; try (apply O); discriminate.
Qed.
Print Assumptions C45_energy_spectrum_normalised.

(** C46: exactly the leading and trailing zeros go, together with their energies. *)
Theorem C46_trimming : forall e1 e2 e3 pdf i m j, trimmed pdf i m j -> length e1 = i -> length e2 = length m -> length e3 = j ->
  integral (combine e2 m) <> 0 ->
  prepare_energy_pdf (e1 ++ e2 ++ e3) pdf = Ok (e2, map (fun p => / integral (combine e2 m) * p) m).
Proof.
  intros e1 e2 e3 pdf i m j T L1 L2 L3 I. rewrite (prepare_trimmed e1 e2 e3 pdf i m j T L1 L2 L3). destruct (Reqb_spec (integral (combine e2 m)) 0); [lra|reflexivity].
Qed.
Print Assumptions C46_trimming.

Theorem C46_error_iff_all_zero : forall energy pdf, length energy = length pdf ->
  (prepare_energy_pdf energy pdf = Err EEnergySpectrum <-> forall x, In x pdf -> x = 0) /\
  (forall x, prepare_energy_pdf energy pdf = Err x -> x = EEnergySpectrum).
Proof.
  intros energy pdf HL. destruct (trim_total pdf) as [Z|(i & m & j & T)].
  - assert (E : prepare_energy_pdf energy pdf = Err EEnergySpectrum) by (unfold prepare_energy_pdf; now rewrite (all_zero_mask _ Z)).
    rewrite E. split; [split; [intros _; now apply Forall_forall|reflexivity]|intros x [= <-]; reflexivity].
  - destruct (trimmed_split energy pdf i m j T HL) as (e1 & e2 & e3 & -> & L1 & L2 & L3).
    rewrite (prepare_trimmed e1 e2 e3 pdf i m j T L1 L2 L3).
    split; [|destruct (Reqb _ _); discriminate]. split; [destruct (Reqb _ _); discriminate|]. intro H. exfalso.
    destruct T as (-> & Hm & Hh & _). apply Hh, H. apply in_or_app; right; apply in_or_app; left. destruct m; [congruence|now left].
Qed.
Print Assumptions C46_error_iff_all_zero.

(** A single non-zero sample is not rejected, and cannot be normalised. *)
Theorem C46_single_sample_not_finite : forall energy i x j, length energy = (i + S j)%nat -> x <> 0 ->
  prepare_energy_pdf energy (repeat 0 i ++ x :: repeat 0 j) = NonFinite.
Proof.
  intros energy i x j HL Hx. assert (T : trimmed (repeat 0 i ++ x :: repeat 0 j) i [x] j) by (split; [reflexivity|]; split; [discriminate|]; split; exact Hx).
  destruct (trimmed_split energy _ i [x] j T) as (e1 & e2 & e3 & -> & L1 & L2 & L3); [rewrite app_length; cbn [length]; now rewrite !repeat_length|].
  rewrite (prepare_trimmed e1 e2 e3 _ i [x] j T L1 L2 L3). destruct e2 as [|y [|z e2]]; try discriminate L2. cbn [combine integral]. destruct (Reqb_spec 0 0); [reflexivity|congruence].
Qed.
Print Assumptions C46_single_sample_not_finite.

(** C47 *)
Definition grid_point (mu sigma : R) (k : nat) : R := mu + (12 * INR k / 999 - 6) * sigma.
Lemma energies_nth mu sigma k : (k < 1000)%nat -> nth_error (energies mu sigma) k = Some (grid_point mu sigma k).
Proof.
  intro H. unfold energies. rewrite linspace_map by lia. rewrite nth_error_map, (nth_error_nth' _ 0%nat) by (rewrite seq_length; exact H).
  rewrite seq_nth by exact H. cbn [option_map plus]. f_equal. unfold grid_point. replace (INR (1000 - 1)) with 999; [lra|].
  change (1000 - 1)%nat with (Z.to_nat 999). rewrite INR_IZR_INZ, Z2Nat.id by lia. reflexivity.
Qed.

Theorem C47_gaussian : forall d r T, (r = DT \/ r = DDn) -> 0 < T <= 40 ->
  let mu := published_mean r T in let sigma := published_sigma r T in
  nominal r < mu /\ 0 < sigma /\ 0 < mu - 6 * sigma /\
  exists e p c, energy_spectrum d T r SGaussian = Ok (Some (e, p), []) /\ length e = 1000%nat /\ length p = 1000%nat /\ 0 < c /\
    increasing e /\ integral (combine e p) = 1 /\
    forall k, (k < 1000)%nat -> exists E, nth_error e k = Some E /\ E = mu + (12 * INR k / 999 - 6) * sigma /\ 0 < E /\
      nth_error p k = Some (c * gaussian mu sigma E).
Proof.
  intros d r T Hr HT mu sigma. destruct (mean_ok r T Hr) as (Em & Es & M & S0); [lra|intros; lra|].
  pose proof (grid_is_positive r T Hr HT) as G. fold mu sigma in Em, Es, M, S0, G.
  split; [exact M|]. split; [exact S0|]. split; [lra|].
  destruct (gaussian_ok mu sigma S0) as (c & Hc & E & I).
  exists (energies mu sigma), (map (fun e => c * gaussian mu sigma e) (energies mu sigma)), c.
  assert (Eb : ballabio_energy_spectrum (spectrum_of r) T SGaussian = gaussian_energy_spectrum mu sigma).
  { unfold ballabio_energy_spectrum. rewrite Em, Es. reflexivity. }
  split.
  { destruct Hr as [-> | ->]; cbn [energy_spectrum energy_spectrum_once ballabio_spectrum]; cbn [spectrum_of] in Eb; rewrite Eb, E; reflexivity. }
  split; [apply energies_length|]. split; [rewrite map_length; apply energies_length|]. split; [exact Hc|].
  split; [now apply energies_increasing|]. split; [exact I|]. intros k Hk. exists (grid_point mu sigma k).
  pose proof (energies_nth mu sigma k Hk) as N. split; [exact N|]. split; [reflexivity|].
  split; [apply (energies_positive mu sigma); [exact S0|lra|eapply nth_error_In; exact N]|]. now rewrite nth_error_map, N.
Qed.
Print Assumptions C47_gaussian.

(** It is symmetric about the mean energy, and the mean of the tabulated spectrum is exactly the mean energy. *)
Lemma integral_rev_app l p q : integral ((l ++ [p]) ++ [q]) = integral (l ++ [p]) + (fst q - fst p) * (snd p + snd q) / 2.
Proof.
  induction l as [|[x y] l IH]; [destruct p, q; cbn; lra|]. destruct l as [|[x' y'] l]; [destruct p, q; cbn; lra|].
  cbn [app] in *. change (integral ((x, y) :: (x', y') :: (l ++ [p]) ++ [q])) with ((x' - x) * (y + y') / 2 + integral ((x', y') :: (l ++ [p]) ++ [q])).
  rewrite IH. change (integral ((x, y) :: (x', y') :: l ++ [p])) with ((x' - x) * (y + y') / 2 + integral ((x', y') :: l ++ [p])). ring.
Qed.
Lemma integral_rev l : integral (rev l) = - integral l.
Proof.
  induction l as [|p l IH]; [cbn; lra|]. destruct l as [|q l]; [destruct p; cbn; lra|].
  cbn [rev] in *. rewrite integral_rev_app, IH. destruct p, q. cbn [integral fst snd]. lra.
Qed.
Lemma integral_lin (f g h : R * R -> R) a b l : (forall p, In p l -> h p = a * f p + b * g p) ->
  integral (map (fun p => (fst p, h p)) l) = a * integral (map (fun p => (fst p, f p)) l) + b * integral (map (fun p => (fst p, g p)) l).
Proof.
  induction l as [|p l IH]; intro H; [cbn; ring|]. destruct l as [|q l]; [cbn; ring|]. cbn [map] in *.
  assert (E : forall f0 : R * R -> R, integral ((fst p, f0 p) :: (fst q, f0 q) :: map (fun p => (fst p, f0 p)) l)
    = (fst q - fst p) * (f0 p + f0 q) / 2 + integral ((fst q, f0 q) :: map (fun p => (fst p, f0 p)) l)) by reflexivity.
  rewrite !E, IH by (intros; apply H; now right). rewrite (H p), (H q) by (cbn; auto). field.
Qed.
Lemma integral_reflect c l : integral (map (fun p => (c - fst p, snd p)) l) = - integral l.
Proof.
  induction l as [|[x y] l IH]; [cbn; ring|]. destruct l as [|[x' y'] l]; [cbn; ring|]. cbn [map fst snd integral] in *. rewrite IH. lra.
Qed.
Theorem C47_symmetric : forall d r T e p w, (r = DT \/ r = DDn) -> 0 < T <= 40 -> energy_spectrum d T r SGaussian = Ok (Some (e, p), w) ->
  rev p = p /\ rev e = map (fun E => 2 * published_mean r T - E) e /\
  integral (map (fun x => (fst x, fst x * snd x)) (combine e p)) = published_mean r T.
Proof.
  intros d r T e p w Hr HT E. destruct (C47_gaussian d r T Hr HT) as (M & S0 & G & e' & p' & c & E' & Le & Lp & Hc & Hi & I & N).
  rewrite E in E'. injection E' as <- <- ->. set (mu := published_mean r T) in *. set (sigma := published_sigma r T) in *.
  assert (Gk : forall k, (k < 1000)%nat -> nth_error e k = Some (grid_point mu sigma k) /\ nth_error p k = Some (c * gaussian mu sigma (grid_point mu sigma k))).
  { intros k Hk. destruct (N k Hk) as (E0 & H1 & H2 & _ & H3). change (E0 = grid_point mu sigma k) in H2. now rewrite <- H2. }
  assert (Ref : forall k, (k < 1000)%nat -> grid_point mu sigma (999 - k) = 2 * mu - grid_point mu sigma k).
  { intros k Hk. unfold grid_point. rewrite minus_INR by lia. replace (INR 999) with 999; [field|].
    change 999%nat with (Z.to_nat 999). rewrite INR_IZR_INZ, Z2Nat.id by lia. reflexivity. }
  assert (Rv : forall (l l' : list R), length l = 1000%nat -> length l' = 1000%nat -> (forall k, (k < 1000)%nat -> nth_error l (999 - k) = nth_error l' k) -> rev l = l').
  { intros l l' L1 L2 H. apply nth_ext with (d := 0) (d' := 0); [rewrite rev_length; congruence|]. intros k Hk. rewrite rev_length in Hk.
    rewrite rev_nth by exact Hk. rewrite L1 in *. replace (1000 - S k)%nat with (999 - k)%nat by lia. specialize (H k Hk).
    assert (A1 : nth_error l (999 - k) = Some (nth (999 - k) l 0)) by (apply nth_error_nth'; lia).
    assert (A2 : nth_error l' k = Some (nth k l' 0)) by (apply nth_error_nth'; lia). congruence. }
  assert (Rp : rev p = p).
  { apply Rv; auto. intros k Hk. destruct (Gk k Hk) as [_ ->]. destruct (Gk (999 - k)%nat ltac:(lia)) as [_ ->]. rewrite (Ref k Hk).
    do 2 f_equal. unfold gaussian. do 2 f_equal. unfold Rdiv. ring. }
  assert (Re : rev e = map (fun E => 2 * mu - E) e).
  { apply Rv; [exact Le|now rewrite map_length|]. intros k Hk. rewrite nth_error_map. destruct (Gk k Hk) as [-> _].
    destruct (Gk (999 - k)%nat ltac:(lia)) as [-> _]. cbn [option_map]. now rewrite (Ref k Hk). }
  split; [exact Rp|]. split; [exact Re|].
  set (J := integral _).
  assert (Rc : rev (combine e p) = map (fun x => (2 * mu - fst x, snd x)) (combine e p)).
  { transitivity (combine (rev e) (rev p)).
    - clear - Le Lp. assert (L : length e = length p) by congruence. clear Le Lp. revert p L. induction e as [|x e IH]; intros [|y p] L; try discriminate; [reflexivity|].
      cbn [combine rev]. rewrite IH by (cbn in L; lia). cbn in L. assert (L' : length (rev e) = length (rev p)) by (rewrite !rev_length; lia).
      revert L'. generalize (rev e) (rev p). clear. intro a. induction a as [|u a IH]; intros [|v b] L; try discriminate; [reflexivity|]. cbn [combine app]. now rewrite IH by (cbn in L; lia).
    - rewrite Re, Rp. generalize p. clear. induction e as [|x e IH]; intros [|y p]; try reflexivity. cbn [map combine fst snd]. now rewrite IH. }
  assert (K : J = - integral (map (fun x => (2 * mu - fst x, (2 * mu - fst x) * snd x)) (combine e p))).
  { unfold J. rewrite <- (Ropp_involutive (integral (map _ (combine e p)))). f_equal. rewrite <- integral_rev, <- map_rev, Rc, map_map. reflexivity. }
  assert (K2 : integral (map (fun x => (2 * mu - fst x, (2 * mu - fst x) * snd x)) (combine e p))
     = - integral (map (fun x => (fst x, (2 * mu - fst x) * snd x)) (combine e p))).
  { rewrite <- (integral_reflect (2 * mu)), map_map. reflexivity. }
  rewrite K2, Ropp_involutive in K.
  rewrite (integral_lin (fun x => snd x) (fun x => fst x * snd x) _ (2 * mu) (-1)) in K by (intros; ring). fold J in K.
  assert (Q : map (fun x : R * R => (fst x, snd x)) (combine e p) = combine e p) by (rewrite <- map_id; apply map_ext; now intros []).
  rewrite Q, I in K. lra.
Qed.
Print Assumptions C47_symmetric.

(** C48 *)
Theorem C48_modified_gaussian : forall d r T, (r = DT \/ r = DDn) -> 0 < T <= 40 ->
  let mu := published_mean r T in let sigma := published_sigma r T in
  0 < m_gaussian_alpha mu sigma < 1 /\ 0 < m_gaussian_width2 mu sigma /\ 0 < m_gaussian_peak mu sigma < mu /\
  exists e p c, energy_spectrum d T r SMGaussian = Ok (Some (e, p), []) /\ length e = 1000%nat /\ length p = 1000%nat /\ 0 < c /\
    increasing e /\ integral (combine e p) = 1 /\
    forall k, (k < 1000)%nat -> exists E, nth_error e k = Some E /\ E = mu + (12 * INR k / 999 - 6) * sigma /\ 0 < E /\
      nth_error p k = Some (c * m_gaussian mu sigma E).
Proof.
  intros d r T Hr HT mu sigma. destruct (mean_ok r T Hr) as (Em & Es & M & S0); [lra|intros; lra|].
  pose proof (grid_is_positive r T Hr HT) as G. fold mu sigma in Em, Es, M, S0, G.
  assert (G2 : 6 * sigma < mu) by lra. pose proof (alpha_range mu sigma S0 G2) as A. pose proof (sqrt_above _ A) as SA.
  split; [exact A|]. split; [unfold m_gaussian_width2; assert (0 < mu ^ 2) by (apply pow_lt; lra); apply Rmult_lt_0_compat; lra|].
  split; [unfold m_gaussian_peak; split; [apply Rmult_lt_0_compat; lra|]; apply Rlt_le_trans with (mu * 1); [apply Rmult_lt_compat_l; lra|lra]|].
  destruct (m_gaussian_ok mu sigma S0 G2) as (c & Hc & E & I).
  exists (energies mu sigma), (map (fun e => c * m_gaussian mu sigma e) (energies mu sigma)), c.
  assert (Eb : ballabio_energy_spectrum (spectrum_of r) T SMGaussian = modified_gaussian_energy_spectrum mu sigma).
  { unfold ballabio_energy_spectrum. rewrite Em, Es. reflexivity. }
  split.
  { destruct Hr as [-> | ->]; cbn [energy_spectrum energy_spectrum_once ballabio_spectrum]; cbn [spectrum_of] in Eb; rewrite Eb, E; reflexivity. }
  split; [apply energies_length|]. split; [rewrite map_length; apply energies_length|]. split; [exact Hc|].
  split; [now apply energies_increasing|]. split; [exact I|]. intros k Hk. exists (grid_point mu sigma k).
  pose proof (energies_nth mu sigma k Hk) as N. split; [exact N|]. split; [reflexivity|].
  split; [apply (energies_positive mu sigma); [exact S0|lra|eapply nth_error_In; exact N]|]. now rewrite nth_error_map, N.
Qed.
Print Assumptions C48_modified_gaussian.

(** The density is largest at the peak energy. *)
Theorem C48_peak : forall mu sigma E, 0 < sigma -> 6 * sigma < mu -> 0 <= E -> E <> m_gaussian_peak mu sigma ->
  m_gaussian mu sigma E < m_gaussian mu sigma (m_gaussian_peak mu sigma).
Proof.
  intros mu sigma E H1 H2 HE N. pose proof (alpha_range mu sigma H1 H2) as A. pose proof (sqrt_above _ A) as SA.
  assert (Pk : 0 < m_gaussian_peak mu sigma) by (unfold m_gaussian_peak; apply Rmult_lt_0_compat; lra).
  assert (W : 0 < m_gaussian_width2 mu sigma) by (unfold m_gaussian_width2; assert (0 < mu ^ 2) by (apply pow_lt; lra); apply Rmult_lt_0_compat; lra).
  unfold m_gaussian. apply exp_increasing. set (k := m_gaussian_peak mu sigma) in *. set (w := m_gaussian_width2 mu sigma) in *.
  replace (2 * k * (sqrt k - sqrt k) ^ 2 / w) with 0 by (field; lra).
  assert (sqrt E <> sqrt k) by (intro Q; apply N; apply sqrt_inj; lra).
  assert (0 < (sqrt E - sqrt k) ^ 2) by (assert (sqrt E - sqrt k <> 0) by lra; nra).
  assert (0 < 2 * k * (sqrt E - sqrt k) ^ 2 / w) by (apply Rdiv_lt_0_compat; [apply Rmult_lt_0_compat; lra|exact W]). lra.
Qed.
Print Assumptions C48_peak.

(** Outside the stated range: above it, the D-D spectrum stops being finite as soon as six widths exceed the mean;
    256 keV is such a temperature. At 0 keV (a cold cell) both shapes fail for both reactions. *)
Theorem C48_too_hot_not_finite : forall d T, 0 < T <= 500 -> published_mean DDn T < 6 * published_sigma DDn T ->
  energy_spectrum d T DDn SMGaussian = NonFinite /\ energy_spectrum d T DDn SAuto = NonFinite.
Proof.
  intros d T HT H. destruct (mean_ok DDn T (or_intror eq_refl)) as (Em & Es & M & S0); [lra|lra|]. cbn [spectrum_of nominal] in *.
  assert (E : ballabio_energy_spectrum ballabio_DD T SMGaussian = NonFinite).
  { unfold ballabio_energy_spectrum. rewrite Em, Es. cbn [bind]. set (mu := published_mean DDn T) in *. set (sigma := published_sigma DDn T) in *.
    unfold modified_gaussian_energy_spectrum. rewrite np_div_ok by lra. cbn [bind]. cbv zeta. unfold np_sqrt at 1.
    destruct (Rltb _ 0); cbn [bind]; [reflexivity|]. rewrite linspace_map by lia. change (seq 0 1000) with (0%nat :: seq 1 999).
    cbn [map mapM]. change (INR 0) with 0. unfold np_sqrt at 1. destruct (Rltb_spec (mu - 6 * sigma + 0 * ((mu + 6 * sigma - (mu - 6 * sigma)) / INR (1000 - 1))) 0) as [L|L].
    - reflexivity.
    - rewrite Rmult_0_l in L. lra. }
  unfold energy_spectrum, energy_spectrum_once. cbn [ballabio_spectrum]. rewrite E. split; reflexivity.
Qed.
Print Assumptions C48_too_hot_not_finite.

Theorem C48_256_keV_refuted : forall d, energy_spectrum d 256 DDn SMGaussian = NonFinite.
Proof.
  intro d. apply C48_too_hot_not_finite; [lra|].
  assert (Sq : sqrt 256 = 16) by (replace 256 with (16 * 16) by lra; apply sqrt_square; lra).
  assert (P47 : Rpower 256 0.47 <= 16). { rewrite <- Sq, <- Rpower_sqrt by lra. apply Rle_Rpower; lra. }
  assert (P23 : 0 < Rpower 256 (2 / 3) <= 41).
  { split; [apply Rpower_gt0|]. assert (C : Rpower 256 (2 / 3) ^ 3 = 65536).
    { rewrite <- Rpower_pow by apply Rpower_gt0. rewrite Rpower_mult. replace (2 / 3 * INR 3) with (INR 2) by (cbn; field). rewrite Rpower_pow by lra. ring. }
    destruct (Rle_lt_dec (Rpower 256 (2 / 3)) 41) as [|G]; [assumption|]. set (y := Rpower 256 (2 / 3)) in *.
    assert (41 ^ 3 <= y ^ 3) by (apply pow_incr; lra). lra. }
  pose proof (Rpower_gt0 256 0.47) as G47. pose proof (Rpower_gt0 256 0.49) as G49. unfold published_mean, published_sigma. rewrite Sq.
  set (q := Rpower 256 0.47) in *. set (u := Rpower 256 0.49) in *. set (v := Rpower 256 (2 / 3)) in *.
  assert (A : 4.69515 / (1 - 0.040729 * q) <= 4.69515 / (1 - 0.040729 * 16)).
  { apply Rmult_le_compat_l; [lra|]. apply Rinv_le_contravar; lra. }
  assert (A0 : 0 < 4.69515 / (1 - 0.040729 * q)) by (apply Rdiv_lt_0_compat; lra).
  assert (A1 : 4.69515 / (1 - 0.040729 * q) * v <= 4.69515 / (1 - 0.040729 * 16) * 41) by (apply Rmult_le_compat; lra).
  assert (B : 0 <= 1.7013e-3 / (1 + 0.16888 * u) * v).
  { apply Rmult_le_pos; [|lra]. apply Rmult_le_pos; [lra|]. left. apply Rinv_0_lt_compat. lra. }
  lra.
Qed.
Print Assumptions C48_256_keV_refuted.

Theorem C48_cold_not_finite : forall d r, (r = DT \/ r = DDn) ->
  energy_spectrum d 0 r SGaussian = NonFinite /\ energy_spectrum d 0 r SMGaussian = NonFinite /\ energy_spectrum d 0 r SAuto = NonFinite.
Proof.
  intros d r Hr.
  assert (F : forall c, 0 < a3 c -> fit c 0 = Ok (a1 c / 1 * 0 + a4 c * 0)).
  { intros c H. unfold fit. rewrite !np_pow_0 by lra. cbn [bind]. rewrite Rmult_0_r, Rplus_0_r, np_div_ok by lra. reflexivity. }
  assert (G : forall b, 0 < a3 (energy_shift_coeffs b) -> 0 < a3 (width_correction_coeffs b) -> 0 < energy_0 b ->
     ballabio_energy_spectrum b 0 SGaussian = NonFinite /\ ballabio_energy_spectrum b 0 SMGaussian = NonFinite).
  { intros b H1 H2 H3. unfold ballabio_energy_spectrum, mean_energy, std_deviation. rewrite !F by assumption. cbn [bind].
    rewrite np_sqrt_ok by lra. cbn [bind]. rewrite sqrt_0. rewrite np_div_ok by (unfold two_sqrt_2ln2; lra). cbn [bind].
    replace (omega_0 b * (1 + (a1 (width_correction_coeffs b) / 1 * 0 + a4 (width_correction_coeffs b) * 0)) * 0 / two_sqrt_2ln2) with 0 by (unfold Rdiv; ring).
    set (mu := energy_0 b + _). assert (Hmu : mu = energy_0 b) by (unfold mu; lra). rewrite Hmu. split.
    - unfold gaussian_energy_spectrum. rewrite Rmult_0_l. unfold np_div at 1. rewrite Reqb_refl. reflexivity.
    - unfold modified_gaussian_energy_spectrum. rewrite np_div_ok by lra. cbn [bind]. cbv zeta.
      replace (1.0 - 1.5 * (0 / energy_0 b) ^ 2) with 1 by (unfold Rdiv; lra). rewrite np_sqrt_ok by lra. cbn [bind]. rewrite sqrt_1.
      rewrite linspace_map by lia. change (seq 0 1000) with (0%nat :: seq 1 999). cbn [map mapM].
      rewrite np_sqrt_ok by (rewrite Rminus_diag_eq with (r1 := energy_0 b + 6 * 0) by ring; unfold Rdiv; lra). cbn [bind].
      rewrite np_sqrt_ok by lra. cbn [bind]. unfold np_div at 1. destruct (Reqb_spec (4.0 / 3.0 * energy_0 b ^ 2 * (1 - 1)) 0) as [Z|Z]; [reflexivity|].
      exfalso. apply Z. ring. }
  destruct Hr as [-> | ->]; unfold energy_spectrum, energy_spectrum_once; cbn [ballabio_spectrum];
    [destruct (G ballabio_DT) as [-> ->]|destruct (G ballabio_DD) as [-> ->]]; cbn; try lra; auto.
Qed.
Print Assumptions C48_cold_not_finite.

(** C49 *)
Theorem C49_dispatch : forall d T,
  (forall r, (r = DT \/ r = DDn) -> energy_spectrum d T r SAuto = energy_spectrum d T r SMGaussian /\ energy_spectrum d T r SData = Err ENotImplemented) /\
  energy_spectrum d T TT SAuto = energy_spectrum d T TT SData /\
  (forall meth s w, (meth = SGaussian \/ meth = SMGaussian) ->
     (energy_spectrum d T TT meth = Ok (s, WNoBallabio TT :: w) <-> energy_spectrum d T TT SData = Ok (s, w))) /\
  (forall r meth, (r = DDp \/ r = DHe3) -> (forall s w, energy_spectrum d T r meth <> Ok (Some s, w)) /\
     (meth <> SAuto -> energy_spectrum d T r meth = Err ENotImplemented) /\ (meth = SAuto -> energy_spectrum d T r meth = Ok (None, []))).
Proof.
  intros d T. split; [|split; [|split]].
  - intros r [-> | ->]; split; reflexivity.
  - reflexivity.
  - intros meth s w Hm. assert (E : energy_spectrum d T TT meth = do s <- data_spectrum d TT T; Ok (Some (fst s), WNoBallabio TT :: snd s)) by (destruct Hm as [-> | ->]; reflexivity).
    rewrite E. change (energy_spectrum d T TT SData) with (do s <- data_spectrum d TT T; Ok (Some (fst s), snd s)).
    destruct (data_spectrum d TT T) as [[x w']| |]; cbn [bind fst snd]; [|split; discriminate|split; discriminate].
    split; intro H; injection H as <- <-; reflexivity.
  - intros r meth [-> | ->]; destruct meth; (split; [discriminate|split; intro H; first [reflexivity|congruence]]).
Qed.
Print Assumptions C49_dispatch.

(** C50 *)
Theorem C50_interpolated_table : forall T j,
  let Tc := Rmin (Rmax T 1) 20 in
  (j < 39)%nat -> table_temperature j <= Tc <= table_temperature (S j) ->
  let u := (Tc - table_temperature j) / (table_temperature (S j) - table_temperature j) in
  let mixed := map (fun p => (1 - u) * fst p + u * snd p) (combine (table_spectrum j) (table_spectrum (S j))) in
  exists c w, energy_spectrum tt_shipped T TT SData = Ok (Some (table_energies, map (fun x => c * x) mixed), w) /\ 0 < c /\
    (w = [] <-> 1 < T < 20).
Proof.
  intros T j Tc Hj HT u mixed. change Tc with (clamped T) in *.
  pose proof (temp_step j (S j) ltac:(lia)) as St.
  assert (Hu : 0 <= u <= 1).
  { unfold u. split; [apply Rmult_le_pos; [lra|left; apply Rinv_0_lt_compat; lra]|].
    apply (Rmult_le_reg_r (table_temperature (S j) - table_temperature j)); [lra|]. unfold Rdiv. rewrite Rmult_assoc, Rinv_l by lra. lra. }
  unfold energy_spectrum, energy_spectrum_once, data_spectrum. rewrite (tt_call_shipped T j Hj HT). fold u. cbn [bind fst snd].
  change (mix u (table_spectrum j) (table_spectrum (S j))) with mixed.
  assert (Lm : length mixed = 500%nat) by (change (length (mix u (table_spectrum j) (table_spectrum (S j))) = 500%nat); now rewrite mix_length, !table_spectrum_length).
  destruct (prepare_positive table_energies mixed) as [I E].
  - apply (mix_positive u); [exact Hu|apply table_positive; lia|apply table_positive; lia].
  - apply table_facts.
  - now rewrite Lm, table_energies_length.
  - rewrite Lm. lia.
  - rewrite E. cbn [bind]. eexists _, _. split; [reflexivity|]. split; [now apply Rinv_0_lt_compat|].
    destruct (Rltb_spec 1 T), (Rltb_spec T 20); cbn [andb]; split; intro; try lra; try reflexivity; discriminate.
Qed.
Print Assumptions C50_interpolated_table.

(** It only depends on the clamped temperature, and is a density at every temperature. *)
Theorem C50_every_temperature : forall T, exists e p w,
  energy_spectrum tt_shipped T TT SData = Ok (Some (e, p), w) /\ e = table_energies /\ length p = 500%nat /\ positive p /\ integral (combine e p) = 1 /\
  exists w', energy_spectrum tt_shipped (Rmin (Rmax T 1) 20) TT SData = Ok (Some (e, p), w').
Proof.
  intro T. destruct (clamped_bracket T) as (j & Hj & B).
  destruct (C50_interpolated_table T j Hj B) as (c & w & E & Hc & _).
  pose proof (C45_energy_spectrum_normalised _ _ _ _ _ _ _ E) as [L I].
  eexists _, _, _. split; [exact E|]. split; [reflexivity|]. split; [now rewrite <- L, table_energies_length|]. split.
  - pose proof (temp_step j (S j) ltac:(lia)) as St. change (Rmin (Rmax T 1) 20) with (clamped T) in *.
    set (u := (clamped T - table_temperature j) / (table_temperature (S j) - table_temperature j)).
    assert (Hu : 0 <= u <= 1).
    { unfold u. split; [apply Rmult_le_pos; [lra|left; apply Rinv_0_lt_compat; lra]|].
      apply (Rmult_le_reg_r (table_temperature (S j) - table_temperature j)); [lra|]. unfold Rdiv. rewrite Rmult_assoc, Rinv_l by lra. lra. }
    apply positive_map. intros x Hx. apply Rmult_lt_0_compat; [exact Hc|].
    assert (P : positive (mix u (table_spectrum j) (table_spectrum (S j)))) by (apply mix_positive; [exact Hu|apply table_positive; lia|apply table_positive; lia]).
    unfold positive in P. rewrite Forall_forall in P. now apply P.
  - split; [exact I|]. change (Rmin (Rmax T 1) 20) with (clamped T) in *.
    assert (Q : Rmin (Rmax (clamped T) 1) 20 = clamped T) by (exact (clip_clip 1 20 T ltac:(lra))).
    destruct (C50_interpolated_table (clamped T) j Hj) as (c' & w' & E' & Hc' & _); [now rewrite Q|].
    rewrite Q in E'. exists w'. rewrite E'.
    pose proof (C45_energy_spectrum_normalised _ _ _ _ _ _ _ E') as [_ I'].
    rewrite integral_scale in I, I'. set (J := integral _) in I, I'.
    assert (c = c'). { assert (J <> 0) by (intro Z; rewrite Z in I; lra). apply (Rmult_eq_reg_r J); lra. } now subst c'.
Qed.
Print Assumptions C50_every_temperature.

(** Changing the unit of energy does not change the integral. *)
Theorem C50_units : forall k e p, k <> 0 -> length e = length p ->
  integral (combine (map (fun x => k * x) e) (map (fun x => x / k) p)) = integral (combine e p).
Proof.
  intros k e p Hk. revert p. induction e as [|x e IH]; intros [|y p] L; try discriminate; [reflexivity|].
  destruct e as [|x' e], p as [|y' p]; try discriminate; [reflexivity|]. specialize (IH (y' :: p) ltac:(cbn in *; lia)).
  cbn [map combine integral] in *. rewrite IH. field. exact Hk.
Qed.
Print Assumptions C50_units.

(** The hypotheses are met. *)
Example prepare_example : prepare_energy_pdf [1; 2; 3; 4; 5] [0; 1; 0; 3; 0] = Ok ([2; 3; 4], map (fun p => / 2 * p) [1; 0; 3]).
Proof.
  assert (T : trimmed [0; 1; 0; 3; 0] 1 [1; 0; 3] 1) by (split; [reflexivity|]; split; [discriminate|]; cbn; split; lra).
  assert (I : integral (combine [2; 3; 4] [1; 0; 3]) = 2) by (cbn; lra).
  pose proof (C46_trimming [1] [2; 3; 4] [5] _ 1 _ 1 T eq_refl eq_refl eq_refl) as E. rewrite I in E. apply E. lra.
Qed.
Example dt_at_20_keV : exists e p, energy_spectrum tt_shipped 20 DT SAuto = Ok (Some (e, p), []) /\ integral (combine e p) = 1.
Proof. destruct (C48_modified_gaussian tt_shipped DT 20 (or_introl eq_refl) ltac:(lra)) as (_ & _ & _ & e & p & c & E & _ & _ & _ & _ & I & _). exists e, p. split; [exact E|exact I]. Qed.
Example tt_at_tabulated : table_temperature 0 = 1 /\ Rmin (Rmax 0.2 1) 20 = table_temperature 0.
Proof. unfold table_temperature. cbn [INR]. rewrite Rmax_right, Rmin_left by lra. lra. Qed.
