(** C103: neutron energy spectra in the arithmetic the computer uses (binary64). *)
From Coq Require Import ZArith Bool Reals Lra Lia List Permutation Sorted.
From Flocq Require Import Core.Core IEEE754.BinarySingleNaN.
From Verif Require Import Base Reactions FloatComp FloatCompProofs FloatCompAcc FloatSource SpecFloatSource FloatSourceProofs FloatSpace FloatSpaceProofs FloatProfileProofs P_FloatSource.
From Verif Require Import FloatReactivity SpecFloatReactivity FloatReactivityProofs P_FloatReactivity FloatGeometryProofs.
From Verif Require Import Energy SpecEnergy EnergyProofs FloatEnergy SpecFloatEnergy FloatEnergyProofs FloatSpectrumProofs FloatGaussProofs FloatMGaussProofs FloatBallabioProofs.
Open Scope R_scope.
Local Notation bp := (bpow radix2).

(** ** Normalisation of any table *)
Lemma integral_close n e : Forall row_ok e -> spaced (bp (-100)) e -> forall a b, Forall2 (close n) a b -> close n (integral (combine (map B2R e) a)) (integral (combine (map B2R e) b)).
Proof.
  intros He Hs. assert (Z : close n 0 0) by (apply (close_weaken 0 n); [lia|]; apply close_refl, Rle_refl). induction e as [|x0 e IH]; intros a b H; [exact Z|]. destruct H as [|y0 z0 a b C0 H]; [exact Z|].
  destruct e as [|x1 e]; [exact Z|]. destruct H as [|y1 z1 a b C1 H]; [exact Z|]. pose proof (bp_pos (-100)). destruct Hs as [G Hs]. apply Forall_inv_tail in He. specialize (IH He Hs (y1 :: a) (z1 :: b) ltac:(now constructor)).
  cbn [map combine integral] in *. apply close_plus; [|exact IH]. pose proof (close_mult_r n _ _ ((B2R x1 - B2R x0) / 2) ltac:(lra) (close_plus n _ _ _ _ C0 C1)) as C.
  replace ((B2R x1 - B2R x0) * (y0 + y1) / 2) with ((y0 + y1) * ((B2R x1 - B2R x0) / 2)) by lra. replace ((B2R x1 - B2R x0) * (z0 + z1) / 2) with ((z0 + z1) * ((B2R x1 - B2R x0) / 2)) by lra. exact C.
Qed.
Lemma spaced_two g l : spaced (two g) l -> spaced (bp g) l.
Proof. now rewrite two_bpow. Qed.
(** Leading and trailing zeros are cut off with their energies; the rest is divided by its trapezoid integral. For a table of at least two rows of ordinary
    size the result is finite and non-negative, each density is within n + 4 units in the last place of the exactly normalised one and the integral of the
    result within n + 4 units in the last place of 1. *)
Theorem C103_normalised : forall np_sum e1 e2 e3 p1 p2 p3, (forall l, sums l (np_sum l)) ->
  length e1 = length p1 -> length e3 = length p3 -> Forall is_zero p1 -> Forall is_zero p3 ->
  ordinary_table e2 p2 -> (2 <= length e2)%nat -> B2R (hd f0 p2) <> 0 -> B2R (last p2 f0) <> 0 ->
  exists p, prepare_energy_pdf64 np_sum (e1 ++ e2 ++ e3) (p1 ++ p2 ++ p3) = Ok (e2, p) /\ 0 < area e2 p2 /\
    Forall2 (fun x y => is_finite x = true /\ 0 <= B2R x /\ within (length e2 + 4) (B2R x) (B2R y / area e2 p2)) p p2 /\
    within (length e2 + 4) (area e2 p) 1.
Proof.
  intros np_sum e1 e2 e3 p1 p2 p3 Hsum L1 L3 Z1 Z3 (L2 & Ln & He & Hs & Hp) H2 Hh Hl. rewrite two_bpow in Ln. apply spaced_two in Hs.
  assert (Re : Forall row_ok e2) by (eapply Forall_impl; [|exact He]; intros x [A B]; rewrite two_bpow in B; now split).
  assert (Dp : Forall dens_ok p2) by (eapply Forall_impl; [|exact Hp]; intros x [A B]; rewrite !two_bpow in B; now split).
  assert (Fin : Forall (fun x : f64 => is_finite x = true) p2) by (eapply Forall_impl; [|exact Dp]; now intros x []).
  assert (N : p2 <> []) by (intro Z; rewrite Z in L2; cbn in L2; lia).
  pose proof (prepare_split np_sum e1 e2 e3 p1 p2 p3 L1 L2 L3 Z1 Z3 Fin N Hh Hl) as P. destruct (total_ok np_sum e2 p2 Hsum L2 H2 Ln Re Hs Dp Hh) as (Tn & Tc & TI).
  fold (area e2 p2) in Tc, TI. set (I := area e2 p2) in *. set (t := np_sum (panels64 e2 p2)) in *. pose proof (bp_pos (-701)).
  exists (map (fun p => fdiv p t) p2). split; [exact P|]. split; [lra|]. set (n := length e2) in *.
  assert (Nn : INR (n + 3) <= bp 42). { rewrite plus_INR. change (INR 3) with (2 + 1). pose proof (bp_mul 2 40) as M. change (bp 2) with 4 in M. change (2 + 40)%Z with 42%Z in M. pose proof (bpow_le radix2 1 40 ltac:(lia)) as B. change (bp 1) with 2 in B. lra. }
  assert (Nf : INR (n + 4) * uu <= / 2). { apply few. rewrite plus_INR. change (INR 4) with (2 + 1 + 1). pose proof (bpow_le radix2 2 40 ltac:(lia)) as B. change (bp 2) with 4 in B. pose proof (bp_mul 1 40) as M. change (bp 1) with 2 in M. pose proof (bpow_le radix2 (1 + 40) 45 ltac:(lia)). lra. }
  assert (Q : Forall2 (fun x y : f64 => fin_nn x /\ close (n + 4) (B2R x) (B2R y / I)) (map (fun p => fdiv p t) p2) p2).
  { clear - Dp Tn Tc TI Nn. clearbody I t n. induction Dp as [|y l Dy _ IH]; cbn [map]; constructor; [|exact IH]. destruct (quotient_ok y t I (n + 3) Nn Dy Tn Tc TI) as [F C]. split; [exact F|]. now replace (n + 4)%nat with (n + 3 + 1)%nat by lia. }
  split.
  - clear - Q Nf. clearbody I t n. induction Q as [|x y l l' [[F G] C] _ IH]; constructor; [|exact IH]. split; [exact F|]. split; [exact G|]. now apply close_within.
  - apply close_within; [exact Nf|]. replace 1 with (integral (combine (map B2R e2) (map (fun x => / I * x) (map B2R p2)))). 2:{ rewrite integral_scale. unfold I, area. fold (area e2 p2). fold I. field. lra. }
    unfold area. apply integral_close; [exact Re|exact Hs|]. clear - Q. clearbody I t n. induction Q as [|x y l l' [F C] _ IH]; cbn [map]; constructor; [|exact IH]. unfold Rdiv in C. now rewrite Rmult_comm.
Qed.
Print Assumptions C103_normalised.

(** The error for an all-zero table, and only for it, whatever the floats (a NaN is not zero). *)
Theorem C103_error_iff_all_zero : forall np_sum energy pdf,
  (prepare_energy_pdf64 np_sum energy pdf = Err EEnergySpectrum <-> forall x, In x pdf -> is_finite x = true /\ B2R x = 0) /\
  (forall x, prepare_energy_pdf64 np_sum energy pdf = Err x -> x = EEnergySpectrum).
Proof.
  intros np_sum energy pdf. unfold prepare_energy_pdf64, trim_zero_mask64. pose proof (nonzero_nil pdf 0) as N. rewrite Forall_forall in N. unfold is_zero in N.
  destruct (nonzero_from64 0 pdf) as [|i r]; cbn [bind].
  - split; [tauto|]. intros x [= <-]. reflexivity.
  - split; [|discriminate]. split; [discriminate|]. intro H. apply N in H. discriminate.
Qed.
Print Assumptions C103_error_iff_all_zero.

(** The claim that a table with a non-zero density is normalised is refuted by every table with a single one: the result is not a number or infinite. *)
Lemma sums_nil l v : sums l v -> l = [] -> is_finite v = true /\ B2R v = 0.
Proof.
  induction 1 as [z F V|x|l l1 l2 a b Pm S1 IH1 S2 IH2]; intro E; [now split|discriminate|]. subst l. apply Permutation_nil in Pm. apply app_eq_nil in Pm as [-> -> ].
  destruct (IH1 eq_refl) as [Fa Va], (IH2 eq_refl) as [Fb Vb]. destruct (fadd_cases a b Fa Fb) as [(_ & V & F)|(V & _)]; [|exfalso]; rewrite Va, Vb, Rplus_0_r, rnd_0 in V; [now split|]. rewrite Rabs_R0 in V. pose proof (bp_pos 1024). lra.
Qed.
Theorem C103_single_sample_refuted : forall np_sum (e1 : list f64) (e : f64) e3 p1 (x : f64) p3, (forall l, sums l (np_sum l)) ->
  length e1 = length p1 -> length e3 = length p3 -> Forall is_zero p1 -> Forall is_zero p3 -> is_finite x = true -> B2R x <> 0 ->
  exists y, prepare_energy_pdf64 np_sum (e1 ++ [e] ++ e3) (p1 ++ [x] ++ p3) = Ok ([e], [y]) /\ is_finite y = false.
Proof.
  intros np_sum e1 e e3 p1 x p3 Hsum L1 L3 Z1 Z3 F V. exists (fdiv x (np_sum [])). split.
  - rewrite (prepare_split np_sum e1 [e] e3 p1 [x] p3); try assumption; try reflexivity; [constructor; [exact F|constructor]|discriminate].
  - destruct (sums_nil [] (np_sum []) (Hsum []) eq_refl) as [Fz Vz]. set (z := np_sum []) in *. clearbody z. destruct z as [sz| | |sz mz ez Bz]; try discriminate Fz.
    + destruct x as [sx| | |sx mx ex Bx]; try discriminate F; [cbn in V; congruence|]. destruct sx, sz; reflexivity.
    + exfalso. cbn [B2R] in Vz. apply (F2R_neq_0 radix2 (Float radix2 (cond_Zopp sz (Z.pos mz)) ez)) in Vz; [exact Vz|]. cbn [Fnum]. destruct sz; discriminate.
Qed.
Print Assumptions C103_single_sample_refuted.

(** ** The spectra of the two-body reactions *)
Lemma uu_p x : x * uu = x / 2 ^ 53.
Proof. rewrite uu_val. rewrite (pow_IZR 2 53). reflexivity. Qed.
Lemma nth_seq {A} (f : nat -> A) k : (k < 1000)%nat -> nth_error (map f (seq 0 1000)) k = Some (f k).
Proof. intro H. rewrite nth_error_map, (nth_error_nth' _ 0%nat) by now rewrite seq_length. now rewrite seq_nth. Qed.
Lemma spectrum_of_data (m s : f64) mu sg r c (shape : R -> R) (p : nat -> f64) : is_finite m = true -> is_finite s = true -> Rabs (B2R m - mu) <= 5 * (uu * mu) -> Rabs (B2R s - sg) <= 12 * (uu * sg) ->
  10 * sg <= mu -> mu <= 8192 * sg -> 1024 <= mu -> mu <= 16384 -> 0 <= r -> r * uu <= / 100 -> 1.011 * r <= c ->
  (forall i, (i < 1000)%nat -> is_finite (p i) = true /\ 0 < B2R (p i) /\ rclose r (B2R (p i)) (grid_density shape mu sg i)) ->
  rclose 1006 (integral (combine (map B2R (map (e64 m s) (seq 0 1000))) (map B2R (map p (seq 0 1000))))) 1 ->
  spectrum_near (c / 2 ^ 53) shape mu sg (map (e64 m s) (seq 0 1000)) (map p (seq 0 1000)).
Proof.
  intros Fm Fs Em Es H1 H2 H3 H4 Hr Hru Hc P J. pose proof uu_pos. pose proof uu_1e15. split; [now rewrite map_length, seq_length|]. split; [now rewrite map_length, seq_length|]. split; [|split].
  - intros k Hk. exists (e64 m s k), (p k). rewrite !nth_seq by exact Hk. split; [reflexivity|]. split; [reflexivity|].
    destruct (e64_near m s mu sg Fm Fs Em Es H1 H2 H3 H4 k ltac:(lia)) as [Fe Ee]. destruct (grid_range mu sg H1 H2 H3 H4 k ltac:(lia)) as [_ G]. destruct (P k Hk) as (Fp & P0 & R).
    assert (E' := Ee). apply Rabs_le_inv in E'. assert (53 * (uu * mu) <= / 100 * mu) by nra.
    split; [exact Fe|]. split; [lra|]. split; [rewrite <- uu_p; lra|]. split; [exact Fp|]. split; [exact P0|]. rewrite <- uu_p. eapply Rle_trans; [exact (rclose_abs _ _ _ Hr Hru R)|]. destruct R as (_ & D0 & _).
    apply Rmult_le_compat_r; [exact D0|]. rewrite <- Rmult_assoc. apply Rmult_le_compat_r; lra.
  - apply sorted_adjacent. intros i a b Ha Hb. rewrite map_map in Ha, Hb. assert (Hi : (S i < 1000)%nat).
    { destruct (Nat.lt_ge_cases (S i) 1000) as [L|L]; [exact L|]. exfalso. assert (Z : nth_error (map (fun x => B2R (e64 m s x)) (seq 0 1000)) (S i) = None) by (apply nth_error_None; rewrite map_length, seq_length; exact L). congruence. }
    rewrite nth_seq in Ha by lia. rewrite nth_seq in Hb by lia. injection Ha as <-. injection Hb as <-.
    pose proof (e64_gap m s mu sg Fm Fs Em Es H1 H2 H3 H4 i ltac:(lia)) as G. apply Rabs_le_inv in G. assert (S0 : / 8 <= sg) by lra. assert (K : mu / sg <= 8192) by (apply (Rmult_le_reg_r sg); [lra|]; unfold Rdiv; rewrite Rmult_assoc, Rinv_l by lra; lra).
    assert (8825 * (mu / sg) * uu <= / 100). { apply Rle_trans with (8825 * 8192 * uu); [apply Rmult_le_compat_r; lra|lra]. }
    assert (8825 * (mu / sg) * uu * (12 * sg / 999) <= / 100 * (12 * sg / 999)) by (apply Rmult_le_compat_r; lra). lra.
  - pose proof (rclose_abs 1006 _ _ ltac:(lra) ltac:(lra) J) as A. unfold area. rewrite <- uu_p. lra.
Qed.

(** Mean energy and standard deviation of D-T and D-D neutrons, between 1 eV and 40 keV, follow the published formulas within 5 and 12 roundings. *)
Theorem C103_mean_and_width : forall spow T r, good_pow spow -> is_finite T = true -> 0.001 <= B2R T <= 40 -> (r = DT \/ r = DDn) ->
  exists b, ballabio_spectrum64 r = Some b /\
    rel_error (5 / 2 ^ 53) (mean_energy64 spow b T) (published_mean r (B2R T)) /\ rel_error (12 / 2 ^ 53) (std_deviation64 spow b T) (published_sigma r (B2R T)).
Proof.
  intros spow T r Sp FT BT Hr. destruct (ballabio_close spow T Sp FT BT r Hr) as (b & Eb & Fm & Fs & Em & Es & _). exists b. split; [exact Eb|].
  unfold rel_error. rewrite <- !uu_p, !Rmult_assoc. repeat split; assumption.
Qed.
Print Assumptions C103_mean_and_width.

(** The Gaussian method: the exact grid and the normalised Gaussian up to 10200 (mean / sigma) roundings. *)
Theorem C103_gaussian : forall spow vexp np_sum T r, good_pow spow -> (forall i, good_exp (vexp i)) -> (forall l, sums l (np_sum l)) ->
  is_finite T = true -> 0.001 <= B2R T <= 40 -> (r = DT \/ r = DDn) ->
  let mu := published_mean r (B2R T) in let sigma := published_sigma r (B2R T) in
  10 <= mu / sigma <= 8192 /\
  exists e p, energy_spectrum64 spow vexp np_sum T r SGaussian = Some (Ok (e, p)) /\
    spectrum_near (10200 * (mu / sigma) / 2 ^ 53) (gaussian mu sigma) mu sigma e p.
Proof.
  intros spow vexp np_sum T r Sp Ve Hsum FT BT Hr mu sg. destruct (ballabio_close spow T Sp FT BT r Hr) as (b & Eb & Fm & Fs & Em & Es & [Kl Kh] & [Ml Mh]). fold mu sg in Em, Es, Kl, Kh, Ml, Mh.
  pose proof uu_pos. pose proof uu_1e15. assert (S0 : 0 < sg) by lra. assert (K : 10 <= mu / sg <= 8192) by (split; apply (Rmult_le_reg_r sg); try lra; unfold Rdiv; rewrite Rmult_assoc, Rinv_l by lra; lra). split; [exact K|].
  destruct (gauss_ok spow vexp np_sum Sp Ve Hsum _ _ mu sg Fm Fs Em Es Kl Kh Ml Mh) as (p & P & _ & Q & J).
  eexists _, _. split; [unfold energy_spectrum64; rewrite Eb; f_equal; exact P|].
  apply (spectrum_of_data _ _ mu sg (10000 * (mu / sg))); try assumption; try lra. apply Rle_trans with (10000 * 8192 * uu); [apply Rmult_le_compat_r; lra|lra].
Qed.
Print Assumptions C103_gaussian.
(** The modified Gaussian, and with it the method AUTO: 340 (mean / sigma)^2 + 11200 (mean / sigma) roundings. *)
Theorem C103_modified_gaussian : forall spow vexp np_sum T r meth, good_pow spow -> (forall i, good_exp (vexp i)) -> (forall l, sums l (np_sum l)) ->
  is_finite T = true -> 0.001 <= B2R T <= 40 -> (r = DT \/ r = DDn) -> (meth = SMGaussian \/ meth = SAuto) ->
  let mu := published_mean r (B2R T) in let sigma := published_sigma r (B2R T) in
  10 <= mu / sigma <= 8192 /\
  exists e p, energy_spectrum64 spow vexp np_sum T r meth = Some (Ok (e, p)) /\
    spectrum_near ((340 * (mu / sigma) ^ 2 + 11200 * (mu / sigma)) / 2 ^ 53) (m_gaussian mu sigma) mu sigma e p.
Proof.
  intros spow vexp np_sum T r meth Sp Ve Hsum FT BT Hr Hm mu sg. destruct (ballabio_close spow T Sp FT BT r Hr) as (b & Eb & Fm & Fs & Em & Es & [Kl Kh] & [Ml Mh]). fold mu sg in Em, Es, Kl, Kh, Ml, Mh.
  pose proof uu_pos. pose proof uu_1e15. assert (S0 : 0 < sg) by lra. assert (K : 10 <= mu / sg <= 8192) by (split; apply (Rmult_le_reg_r sg); try lra; unfold Rdiv; rewrite Rmult_assoc, Rinv_l by lra; lra). split; [exact K|].
  destruct (mgauss_ok spow vexp np_sum Sp Ve Hsum _ _ mu sg Fm Fs Em Es Kl Kh Ml Mh) as (p & P & _ & Q & J).
  eexists _, _. split; [unfold energy_spectrum64; rewrite Eb; destruct Hm as [-> | -> ]; f_equal; exact P|].
  assert (K2 : 100 <= mu / sg * (mu / sg) <= 8192 * 8192) by (split; [replace 100 with (10 * 10) by lra|]; apply Rmult_le_compat; lra). cbn [pow]. rewrite Rmult_1_r.
  apply (spectrum_of_data _ _ mu sg (330 * (mu / sg * (mu / sg)) + 11000 * (mu / sg))); try assumption; try lra. apply Rle_trans with ((330 * (8192 * 8192) + 11000 * 8192) * uu); [apply Rmult_le_compat_r; lra|lra].
Qed.
Print Assumptions C103_modified_gaussian.
(** Without a measured spectrum the method DATA is refused. *)
Theorem C103_data_refused : forall spow vexp np_sum T r, (r = DT \/ r = DDn) -> energy_spectrum64 spow vexp np_sum T r SData = Some (Err ENotImplemented).
Proof. now intros spow vexp np_sum T r [-> | -> ]. Qed.
Print Assumptions C103_data_refused.

(** The hypotheses are met: functions and sums of the required quality, a temperature of 20 keV, and a table with zeros at both ends. *)
Example C103_hypotheses : good_pow pow_nearest /\ good_exp exp_nearest /\ (forall l, sums l (pysum64 l)) /\ is_finite (f64_of_Z 20) = true /\ 0.001 <= B2R (f64_of_Z 20) <= 40.
Proof. split; [apply C98_libm|]. split; [apply C98_libm|]. split; [apply C83_npsum|]. destruct (f64_of_Z_exact 20 ltac:(lia)) as [F V]. split; [exact F|]. rewrite V. lra. Qed.
Example C103_table : ordinary_table [f1; f2; f64_of_Z 3] [f1; f0; f2] /\ B2R (hd f0 [f1; f0; f2]) <> 0 /\ B2R (last [f1; f0; f2] f0) <> 0 /\
  exists p, prepare_energy_pdf64 pysum64 ([f0] ++ [f1; f2; f64_of_Z 3] ++ [f64_of_Z 4]) ([f0] ++ [f1; f0; f2] ++ [f0]) = Ok ([f1; f2; f64_of_Z 3], p).
Proof.
  destruct f1_value as [F1 V1]. destruct (f64_of_Z_exact 2 ltac:(lia)) as [F2 V2]. destruct (f64_of_Z_exact 3 ltac:(lia)) as [F3 V3]. fold f2 in F2, V2.
  pose proof (bpow_le radix2 2 40 ltac:(lia)) as B40. pose proof (bpow_le radix2 2 100 ltac:(lia)) as B100. pose proof (bpow_le radix2 (-100) 0 ltac:(lia)) as Bm. pose proof (bpow_le radix2 (-600) 0 ltac:(lia)) as B6. change (bp 2) with 4 in *. change (bp 0) with 1 in *.
  assert (H : ordinary_table [f1; f2; f64_of_Z 3] [f1; f0; f2]).
  { split; [reflexivity|]. rewrite !two_bpow. split; [cbn; lra|]. split; [|split].
    - constructor; [split; [exact F1|rewrite V1; apply Rabs_le; lra]|]. constructor; [split; [exact F2|rewrite V2; apply Rabs_le; lra]|]. constructor; [split; [exact F3|rewrite V3; apply Rabs_le; lra]|constructor].
    - cbn [spaced]. rewrite V1, V2, V3. lra.
    - constructor; [split; [exact F1|right; rewrite V1; lra]|]. constructor; [split; [reflexivity|left; reflexivity]|]. constructor; [split; [exact F2|right; rewrite V2; lra]|constructor]. }
  assert (Hh : B2R (hd f0 [f1; f0; f2]) <> 0) by (cbn [hd]; rewrite V1; lra). assert (Hl : B2R (last [f1; f0; f2] f0) <> 0) by (cbn [last]; rewrite V2; lra).
  split; [exact H|]. split; [exact Hh|]. split; [exact Hl|].
  assert (Z : Forall is_zero [f0]) by (constructor; [split; reflexivity|constructor]).
  destruct (C103_normalised pysum64 [f0] [f1; f2; f64_of_Z 3] [f64_of_Z 4] [f0] [f1; f0; f2] [f0] C83_npsum eq_refl eq_refl Z Z H ltac:(cbn; lia) Hh Hl) as (p & P & _). now exists p.
Qed.
