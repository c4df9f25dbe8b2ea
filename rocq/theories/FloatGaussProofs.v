(** Lemmas for C103: the Gaussian. *)
From Coq Require Import ZArith Bool Reals Lra Lia List Permutation.
From Flocq Require Import Core.Core IEEE754.BinarySingleNaN.
From Verif Require Import Base FloatComp FloatCompProofs FloatCompAcc FloatSource SpecFloatSource FloatSourceProofs FloatSpace FloatSpaceProofs FloatProfileProofs.
From Verif Require Import FloatReactivity SpecFloatReactivity FloatReactivityProofs FloatGeometryProofs.
From Verif Require Import Energy SpecEnergy EnergyProofs FloatEnergy SpecFloatEnergy FloatEnergyProofs FloatSpectrumProofs.
Open Scope R_scope.
Local Notation bp := (bpow radix2).
Local Notation sized := FloatReactivityProofs.near.

Lemma map2_map {A B C} (f : A -> B -> C) (g : A -> B) l : map2 f l (map g l) = map (fun i => f i (g i)) l.
Proof. induction l as [|x l IH]; cbn; [reflexivity|now rewrite IH]. Qed.
Lemma map_ext_seq {A} (f g : nat -> A) n : (forall i, (i < n)%nat -> f i = g i) -> map f (seq 0 n) = map g (seq 0 n).
Proof. intro H. apply map_ext_in. intros i Hi. apply in_seq in Hi. apply H. lia. Qed.
Lemma square_ok spow (x : f64) X r : good_pow spow -> is_finite x = true -> 0 <= r -> rclose r (B2R x) X -> 0 < X -> bp (-100) <= B2R x <= bp 100 ->
  fin_nn (spow x f2) /\ rclose (9.01 + 2 * r) (B2R (spow x f2)) (X * X).
Proof.
  intros Sp F Hr R HX B. pose proof (bp_pos (-100)) as P. destruct f2_val as [F2 V2].
  assert (E : Rpower (B2R x) (B2R f2) = B2R x * B2R x) by (rewrite V2; apply Rpower_2; lra).
  assert (S : bp (-200) <= B2R x * B2R x <= bp 200). { replace (bp (-200)) with (bp (-100) * bp (-100)) by (rewrite bp_mul; reflexivity). replace (bp 200) with (bp 100 * bp 100) by (rewrite bp_mul; reflexivity). split; apply Rmult_le_compat; lra. }
  pose proof (Sp x f2 F F2 ltac:(lra)) as H. rewrite E in H. specialize (H (two_1000 _ (-200) 200 S ltac:(lia) ltac:(lia))).
  destruct (four_close _ _ (Rle_trans _ _ _ (Rlt_le _ _ (bp_pos (-200))) (proj1 S)) H) as [A C]. split; [exact A|]. apply rclose_of_close in C.
  eapply rclose_weaken; [|exact (rclose_trans _ _ _ _ _ C (rclose_mult _ _ _ _ _ _ R R))]. replace (INR 9) with 9 by (cbn; lra). lra.
Qed.
Lemma exp_bounds x : -40 <= x <= 1 -> bp (-80) <= exp x <= bp 2.
Proof.
  intro H. split.
  - apply Rle_trans with (exp (- INR 40)); [exact (exp_low 40)|]. apply exp_le. replace (INR 40) with 40 by (rewrite INR_IZR_INZ; reflexivity). lra.
  - change (bp 2) with 4. apply Rle_trans with (exp 1); [apply exp_le; lra|]. pose proof exp_le_3. lra.
Qed.
(** A good exponential of a number near x. *)
Lemma exp_ok vexp (f : f64) x r : good_exp vexp -> is_finite f = true -> -39 <= x <= 0 -> 0 <= r -> r * uu <= / 100 -> Rabs (B2R f - x) <= r * uu ->
  fin_nn (vexp f) /\ rclose (9.01 + r) (B2R (vexp f)) (exp x) /\ bp (-81) <= B2R (vexp f) <= bp 3.
Proof.
  intros Ve F Hx Hr Sr E. assert (E' := E). apply Rabs_le_inv in E'. destruct (exp_bounds (B2R f) ltac:(lra)) as [L U].
  assert (H : four_ulp (vexp f) (exp (B2R f))) by (apply Ve; [exact F|]; apply (two_1000 _ (-80) 2); [split; assumption|lia|lia]).
  destruct (four_close _ _ (Rlt_le _ _ (exp_pos _)) H) as [A C]. split; [exact A|]. assert (C' := C). apply rclose_of_close in C. split.
  - eapply rclose_weaken; [|exact (rclose_trans _ _ _ _ _ C (rclose_exp r _ _ E))]. replace (INR 9) with 9 by (cbn; lra). lra.
  - pose proof (wp_1 9). assert (W : wp 9 <= 2) by (rewrite <- bp_1; apply wp_2; cbn; pose proof uu_small; lra). destruct C' as (C0 & C1 & C2 & C3).
    assert (E21 : forall a, bp (a + 1) = 2 * bp a) by (intro a; rewrite <- bp_1, bp_mul; f_equal; lia). pose proof (E21 (-81)%Z) as E1. pose proof (E21 2%Z) as E2. change (-81 + 1)%Z with (-80)%Z in E1. change (2 + 1)%Z with 3%Z in E2.
    split; nra.
Qed.
Lemma f_pi_size : sized 0 f_pi (B2R f_pi) 1 2.
Proof.
  destruct (normalize_exact 884279719003555 (-48) false) as [F V]; [vm_compute; reflexivity|lia|]. fold f_pi in F, V. apply near_exact; [exact F|]. rewrite V. change (bp (-48)) with (/ 281474976710656). change (bp 1) with 2. change (bp 2) with 4. lra.
Qed.

Section Gauss.
  Variables (spow : f64 -> f64 -> f64) (vexp : nat -> f64 -> f64) (np_sum : list f64 -> f64).
  Hypotheses (Sp : good_pow spow) (Ve : forall i, good_exp (vexp i)) (Hsum : forall l, sums l (np_sum l)).
  Variables (m s : f64) (mu sg : R).
  Hypotheses (Fm : is_finite m = true) (Fs : is_finite s = true) (Em : Rabs (B2R m - mu) <= 5 * (uu * mu)) (Es : Rabs (B2R s - sg) <= 12 * (uu * sg)).
  Hypotheses (Kl : 10 * sg <= mu) (Kh : mu <= 8192 * sg) (Ml : 1024 <= mu) (Mh : mu <= 16384).
  Let ka : R := mu / sg.
  Lemma ka_range : 10 <= ka <= 8192 /\ mu = ka * sg.
  Proof.
    pose proof (sg_size mu sg Kl Kh Ml Mh). unfold ka. split; [|field; lra]. split; [apply (Rmult_le_reg_r sg); [lra|]; replace (mu / sg * sg) with mu by (field; lra); lra|].
    apply (Rmult_le_reg_r sg); [lra|]. replace (mu / sg * sg) with mu by (field; lra). lra.
  Qed.
  Lemma s_close : rclose 12.24 (B2R s) sg.
  Proof. pose proof (sg_size mu sg Kl Kh Ml Mh). pose proof uu_pos. pose proof uu_1e15. eapply rclose_weaken; [|apply (rclose_of_abs 12); [lra|lra|lra|]]; [lra|]. eapply Rle_trans; [exact Es|]. lra. Qed.
  Lemma s_value : 0.1 <= B2R s <= 1700.
  Proof. pose proof (sg_size mu sg Kl Kh Ml Mh). pose proof uu_pos. pose proof uu_1e15. assert (E := Es). apply Rabs_le_inv in E. assert (uu * sg <= / 1000000 * sg) by (apply Rmult_le_compat_r; lra). lra. Qed.
  Lemma s_size : sized 0 s (B2R s) (-4) 11.
  Proof. apply near_exact; [exact Fs|]. pose proof s_value. change (bp (-4)) with (/ 16). change (bp 11) with 2048. lra. Qed.
  Local Notation ee := (e64 m s).
  Local Notation EE := (grid_energy mu sg).
  Lemma gap_rclose i : (S i < 1000)%nat -> B2R (ee i) + bp (-100) <= B2R (ee (S i)) /\ EE i < EE (S i) /\ rclose (9002 * ka) (B2R (ee (S i)) - B2R (ee i)) (EE (S i) - EE i).
  Proof.
    intro Hi. pose proof (e64_gap m s mu sg Fm Fs Em Es Kl Kh Ml Mh i ltac:(lia)) as G. destruct ka_range as [K0 _]. fold ka in G. pose proof (sg_size mu sg Kl Kh Ml Mh). pose proof uu_pos. pose proof uu_1e15.
    assert (EH : EE (S i) - EE i = 12 * sg / 999) by (unfold grid_energy; rewrite S_INR; lra). rewrite EH. set (h := 12 * sg / 999) in *. assert (0.001 < h) by (unfold h; lra).
    assert (KU : ka * uu <= / 100000000000) by (apply Rle_trans with (8192 * / 1000000000000000); [apply Rmult_le_compat; lra|lra]).
    assert (S1 : 8825 * ka * uu <= / 100) by lra. split; [|split; [lra|]].
    - assert (bp (-100) <= bp (-20)) by (apply bpow_le; lia). change (bp (-20)) with (/ 1048576) in *. apply Rabs_le_inv in G. assert (8825 * ka * uu * h <= / 100 * h) by (apply Rmult_le_compat_r; lra). lra.
    - eapply rclose_weaken; [|apply (rclose_of_abs (8825 * ka)); [lra|exact S1|lra|exact G]]. lra.
  Qed.
  Lemma row i : (i < 1000)%nat -> row_ok (ee i).
  Proof.
    intro Hi. destruct (e64_near m s mu sg Fm Fs Em Es Kl Kh Ml Mh i ltac:(lia)) as [F E]. destruct (grid_range mu sg Kl Kh Ml Mh i ltac:(lia)) as [_ R]. pose proof (sg_size mu sg Kl Kh Ml Mh). pose proof uu_pos. pose proof uu_1e15.
    split; [exact F|]. apply Rabs_le_inv in E. assert (uu * mu <= / 1000000 * mu) by (apply Rmult_le_compat_r; lra). assert (bp 20 <= bp 100) by (apply bpow_le; lia). change (bp 20) with 1048576 in *. apply Rabs_le. lra.
  Qed.

  (** The exponent of the Gaussian. *)
  Let var2 : f64 := fmul f2 (spow s f2).
  Let xg (i : nat) : f64 := fdiv (Bopp (fmul (fsub (ee i) m) (fsub (ee i) m))) var2.
  Lemma var2_ok : fin_nn var2 /\ rclose 35 (B2R var2) (2 * (sg * sg)) /\ Rabs (B2R var2 - 2 * (sg * sg)) <= 36 * uu * (2 * (sg * sg)).
  Proof.
    pose proof (sg_size mu sg Kl Kh Ml Mh) as Sz. pose proof uu_pos. pose proof uu_1e15. pose proof s_value as V. destruct f2_val as [F2 V2].
    destruct (square_ok spow s sg 12.24 Sp Fs ltac:(lra) s_close ltac:(lra)) as [A R].
    { assert (bp (-100) <= bp (-4)) by (apply bpow_le; lia). assert (bp 11 <= bp 100) by (apply bpow_le; lia). change (bp (-4)) with (/ 16) in *. change (bp 11) with 2048 in *. lra. }
    assert (S2 : / 64 <= sg * sg <= 2700000) by (split; nra).
    assert (B : Rabs (B2R (spow s f2) - sg * sg) <= / 100 * (sg * sg)).
    { eapply Rle_trans; [apply (rclose_abs (9.01 + 2 * 12.24) _ _ ltac:(lra) ltac:(lra) R)|]. apply Rmult_le_compat_r; [lra|]. lra. }
    apply Rabs_le_inv in B. destruct (fmul_close f2 (spow s f2)) as [M C]; [split; [exact F2|rewrite V2; lra]|exact A| |].
    { right. rewrite V2. assert (bp (-1022) <= bp (-20)) by (apply bpow_le; lia). assert (bp 30 <= bp 1023) by (apply bpow_le; lia). change (bp (-20)) with (/ 1048576) in *. change (bp 30) with 1073741824 in *. lra. }
    rewrite V2 in C. fold var2 in M, C. apply rclose_of_close in C. change (INR 1) with 1 in C. assert (R35 : rclose 35 (B2R var2) (2 * (sg * sg))).
    { eapply rclose_weaken; [|exact (rclose_trans _ _ _ _ _ C (rclose_scale _ _ _ 2 ltac:(lra) R))]. lra. }
    split; [exact M|]. split; [exact R35|]. eapply Rle_trans; [apply (rclose_abs 35 _ _ ltac:(lra) ltac:(lra) R35)|]. apply Rmult_le_compat_r; [lra|]. lra.
  Qed.
  Lemma xg_ok i : (i < 1000)%nat -> let t := 12 * INR i / 999 - 6 in is_finite (xg i) = true /\ Rabs (B2R (xg i) - - (t * t / 2)) <= (362 * ka + 690) * uu /\ -6 <= t <= 6.
  Proof.
    intros Hi t. pose proof (sg_size mu sg Kl Kh Ml Mh) as Sz. pose proof uu_pos as U0. pose proof uu_1e15 as U. destruct ka_range as [K0 KM]. destruct (grid_range mu sg Kl Kh Ml Mh i ltac:(lia)) as [T _]. fold t in T.
    pose proof (e64_near m s mu sg Fm Fs Em Es Kl Kh Ml Mh i ltac:(lia)) as N. assert (ED : EE i - mu = t * sg) by (unfold grid_energy, t; ring).
    assert (AT : Rabs (t * sg) <= 6 * sg) by (rewrite Rabs_mult, (Rabs_pos_eq sg) by lra; apply Rmult_le_compat_r; [lra|apply Rabs_le; lra]).
    assert (ND : near mu 60 (fsub (ee i) m) (t * sg)).
    { rewrite <- ED. eapply near_weak; [lra|apply (near_sub mu 53 5 1); [apply (mu_scale mu Ml Mh)|lra|exact N|split; [exact Fm|exact Em]|rewrite ED; lra|lra|lra]|lra]. }
    destruct ND as [FD DD]. set (d := fsub (ee i) m) in *.
    set (de := 60 * (ka * uu)). assert (KU : 0 <= ka * uu <= / 100000000000) by (split; [apply Rmult_le_pos; lra|apply Rle_trans with (8192 * / 1000000000000000); [apply Rmult_le_compat; lra|lra]]).
    assert (D1 : Rabs (B2R d - t * sg) <= de * sg) by (eapply Rle_trans; [exact DD|]; right; unfold de; rewrite KM; ring). assert (De : 0 <= de <= / 1000000000) by (unfold de; lra).
    assert (D2 : Rabs (B2R d) <= (6 + de) * sg). { replace (B2R d) with ((B2R d - t * sg) + t * sg) by ring. eapply Rle_trans; [apply Rabs_triang|]. lra. }
    assert (D3 : Rabs (B2R d * B2R d - t * t * (sg * sg)) <= de * 12.001 * (sg * sg)).
    { replace (B2R d * B2R d - t * t * (sg * sg)) with ((B2R d - t * sg) * (B2R d + t * sg)) by ring. rewrite Rabs_mult. replace (de * 12.001 * (sg * sg)) with (de * sg * (12.001 * sg)) by ring.
      apply Rmult_le_compat; try apply Rabs_pos; [exact D1|]. eapply Rle_trans; [apply Rabs_triang|]. assert (de * sg <= 0.001 * sg) by (apply Rmult_le_compat_r; lra). lra. }
    assert (S2 : / 64 <= sg * sg <= 2700000) by (split; nra). set (v := sg * sg) in *.
    assert (D4 : Rabs (B2R d * B2R d) <= 37 * v).
    { replace (B2R d * B2R d) with ((B2R d * B2R d - t * t * v) + t * t * v) by ring. eapply Rle_trans; [apply Rabs_triang|]. assert (0 <= t * t <= 36) by (split; nra). rewrite (Rabs_pos_eq (t * t * v)) by (apply Rmult_le_pos; lra).
      assert (t * t * v <= 36 * v) by (apply Rmult_le_compat_r; lra). assert (de * 12.001 * v <= 1 * v) by (apply Rmult_le_compat_r; lra). lra. }
    destruct (fmul_about v 37 d d (scale_of v ltac:(lra)) (K30 37 ltac:(lra)) FD FD D4) as [FQ DQ]. set (q := fmul d d) in *.
    assert (Q : Rabs (B2R q - t * t * v) <= (721 * ka + 37) * uu * v).
    { replace (B2R q - t * t * v) with ((B2R q - B2R d * B2R d) + (B2R d * B2R d - t * t * v)) by ring. eapply Rle_trans; [apply Rabs_triang|].
      assert (de * 12.001 * v <= 721 * (ka * uu) * v) by (apply Rmult_le_compat_r; [lra|unfold de; lra]). lra. }
    destruct var2_ok as (VN & _ & VA). fold v in VA. destruct VN as [VF _].
    set (w := B2R var2) in *. assert (W : Rabs (w / (2 * v) - 1) <= 36 * uu). { replace (w / (2 * v) - 1) with ((w - 2 * v) / (2 * v)) by (field; lra). unfold Rdiv. rewrite Rabs_mult, (Rabs_pos_eq (/ (2 * v))) by (left; apply Rinv_0_lt_compat; lra). apply (Rmult_le_reg_r (2 * v)); [lra|]. rewrite Rmult_assoc, Rinv_l by lra. lra. }
    assert (W1 : Rabs (w - 2 * v) <= / 1000 * (2 * v)) by (eapply Rle_trans; [exact VA|]; apply Rmult_le_compat_r; lra). apply Rabs_le_inv in W1.
    assert (X : Rabs (- B2R q / w - - (t * t / 2)) <= (361.5 * ka + 669) * uu).
    { replace (- B2R q / w - - (t * t / 2)) with (- ((B2R q - t * t * v) - t * t / 2 * (w - 2 * v)) / w) by (field; lra). unfold Rdiv at 1. rewrite Rabs_mult, Rabs_Ropp.
      rewrite (Rabs_pos_eq (/ w)) by (left; apply Rinv_0_lt_compat; lra). apply (Rmult_le_reg_r w); [lra|]. rewrite Rmult_assoc, Rinv_l by lra. rewrite Rmult_1_r.
      assert (T2 : 0 <= t * t / 2 <= 18) by (split; nra).
      assert (A : Rabs (B2R q - t * t * v - t * t / 2 * (w - 2 * v)) <= (721 * ka + 37) * uu * v + 18 * (36 * uu * (2 * v))).
      { eapply Rle_trans; [apply Rabs_triang|]. rewrite Rabs_Ropp, (Rabs_mult (t * t / 2)), (Rabs_pos_eq (t * t / 2)) by lra. apply Rplus_le_compat; [exact Q|]. apply Rmult_le_compat; try lra. apply Rabs_pos. }
      eapply Rle_trans; [exact A|]. apply Rle_trans with ((361.5 * ka + 669) * uu * (1.998 * v)); [|apply Rmult_le_compat_l; [apply Rmult_le_pos; lra|lra]].
      replace ((721 * ka + 37) * uu * v + 18 * (36 * uu * (2 * v))) with ((721 * ka + 1333) * (uu * v)) by ring. replace ((361.5 * ka + 669) * uu * (1.998 * v)) with ((361.5 * ka + 669) * 1.998 * (uu * v)) by ring.
      apply Rmult_le_compat_r; [apply Rmult_le_pos; lra|lra]. }
    assert (BX : Rabs (B2R (Bopp q) / B2R var2) <= 20 * 1).
    { rewrite B2R_Bopp. fold w. replace (- B2R q / w) with ((- B2R q / w - - (t * t / 2)) + - (t * t / 2)) by ring. eapply Rle_trans; [apply Rabs_triang|]. rewrite Rabs_Ropp, (Rabs_pos_eq (t * t / 2)) by nra.
      assert ((361.5 * ka + 669) * uu <= 1) by lra. assert (t * t <= 36) by nra. lra. }
    assert (FO : is_finite (Bopp q) = true) by (rewrite is_finite_Bopp; exact FQ).
    destruct (fdiv_about 1 20 (Bopp q) var2 (scale_of 1 ltac:(lra)) (K30 20 ltac:(lra)) FO VF ltac:(fold w; lra) BX) as [FX EX].
    split; [exact FX|]. split; [|exact T]. unfold xg. fold d q. rewrite B2R_Bopp in EX. fold w in EX.
    set (z := fdiv (Bopp q) var2) in *. replace (B2R z - - (t * t / 2)) with ((B2R z - - B2R q / w) + (- B2R q / w - - (t * t / 2))) by ring. eapply Rle_trans; [apply Rabs_triang|]. lra.
  Qed.
  Let norm : f64 := fdiv f1 (fmul s (fsqrt (fmul f2 f_pi))).
  Lemma norm_ok : fin_nn norm /\ bp (-15) <= B2R norm <= bp 5.
  Proof.
    destruct f2_val as [F2 V2]. assert (N2 : sized 0 f2 (B2R f2) 1 1) by (apply near_exact; [exact F2|rewrite V2; change (bp 1) with 2; lra]).
    assert (N1 : sized 0 f1 (B2R f1) 0 0) by (destruct f1_value as [F1 V1]; apply near_exact; [exact F1|rewrite V1; change (bp 0) with 1; lra]).
    pose proof (FloatReactivityProofs.near_mul _ _ _ _ _ _ _ _ _ _ N2 f_pi_size ltac:(tn) ltac:(tn) ltac:(lia) ltac:(lia)) as A.
    apply (near_weaken _ (2 * 1) _ _ _ _ (2 * 1) (2 * 2)) in A; [|lia|lia|lia].
    pose proof (near_sqrt 1 _ _ 1 2 ltac:(tn) A ltac:(lia) ltac:(lia)) as B.
    pose proof (FloatReactivityProofs.near_mul _ _ _ _ _ _ _ _ _ _ s_size B ltac:(tn) ltac:(tn) ltac:(lia) ltac:(lia)) as C.
    pose proof (near_div _ _ _ _ _ _ _ _ _ _ N1 C ltac:(tn) ltac:(tn) ltac:(lia) ltac:(lia)) as D.
    split; [apply D|]. pose proof (fun H => near_size _ _ _ _ _ H D) as S. specialize (S ltac:(tn)). fold norm in S.
    split; [eapply Rle_trans; [|apply S]|eapply Rle_trans; [apply S|]]; apply bpow_le; lia.
  Qed.
  Let qg (i : nat) : f64 := fmul norm (vexp i (xg i)).
  Lemma qg_ok i : (i < 1000)%nat -> dens_ok (qg i) /\ 0 < B2R (qg i) /\ 0 < gaussian mu sg (EE i) /\ rclose (362 * ka + 702) (B2R (qg i)) (B2R norm * gaussian mu sg (EE i)).
  Proof.
    intro Hi. destruct (xg_ok i Hi) as (F & E & T). set (t := 12 * INR i / 999 - 6) in *. destruct ka_range as [K0 _]. pose proof uu_pos. pose proof uu_1e15. pose proof (sg_size mu sg Kl Kh Ml Mh).
    assert (KU : 0 <= ka * uu <= / 100000000000) by (split; [apply Rmult_le_pos; lra|apply Rle_trans with (8192 * / 1000000000000000); [apply Rmult_le_compat; lra|lra]]).
    assert (EG : gaussian mu sg (EE i) = exp (- (t * t / 2))). { unfold gaussian, grid_energy. f_equal. fold t. field. lra. }
    destruct (exp_ok (vexp i) (xg i) (- (t * t / 2)) (362 * ka + 690) (Ve i) F ltac:(split; nra) ltac:(lra) ltac:(lra) E) as (A & R & B). rewrite <- EG in R.
    destruct norm_ok as [Nn Nb].
    assert (Sz : bp (-96) <= B2R norm * B2R (vexp i (xg i)) <= bp 8).
    { replace (bp (-96)) with (bp (-15) * bp (-81)) by (rewrite bp_mul; reflexivity). replace (bp 8) with (bp 5 * bp 3) by (rewrite bp_mul; reflexivity). pose proof (bp_pos (-15)). pose proof (bp_pos (-81)). split; apply Rmult_le_compat; lra. }
    destruct (fmul_close norm (vexp i (xg i)) Nn A (normal_of _ (-96) 8 Sz ltac:(lia) ltac:(lia))) as [Q C]. fold (qg i) in Q, C.
    assert (W : wp 1 <= 2) by (rewrite <- bp_1; apply wp_2; cbn; pose proof uu_small; lra). pose proof (wp_1 1).
    assert (Bq : bp (-97) <= B2R (qg i) <= bp 9).
    { destruct C as (C0 & C1 & C2 & C3). assert (E21 : forall a, bp (a + 1) = 2 * bp a) by (intro a; rewrite <- bp_1, bp_mul; f_equal; lia). pose proof (E21 (-97)%Z) as E1. pose proof (E21 8%Z) as E2. change (-97 + 1)%Z with (-96)%Z in E1. change (8 + 1)%Z with 9%Z in E2. split; nra. }
    pose proof (bp_pos (-97)). split; [split; [apply Q|right]|].
    { split; [apply Rle_trans with (bp (-97)); [apply bpow_le; lia|apply Bq]|apply Rle_trans with (bp 9); [apply Bq|apply bpow_le; lia]]. }
    split; [lra|]. split; [rewrite EG; apply exp_pos|]. apply rclose_of_close in C. change (INR 1) with 1 in C. eapply rclose_weaken; [|exact (rclose_trans _ _ _ _ _ C (rclose_scale _ _ _ (B2R norm) (proj2 Nn) R))]. lra.
  Qed.
  Lemma gauss_ok : let G := gaussian mu sg in
    exists p, gaussian_energy_spectrum64 spow vexp np_sum m s = Ok (map ee (seq 0 1000), map p (seq 0 1000)) /\ 0 < integral (map (fun i => (EE i, G (EE i))) (seq 0 1000)) /\
      (forall i, (i < 1000)%nat -> is_finite (p i) = true /\ 0 < B2R (p i) /\ rclose (10000 * ka) (B2R (p i)) (grid_density G mu sg i)) /\
      rclose 1006 (integral (combine (map B2R (map ee (seq 0 1000))) (map B2R (map p (seq 0 1000))))) 1.
  Proof.
    intro G. destruct ka_range as [K0 _]. destruct norm_ok as [Nn Nb]. pose proof (bp_pos (-15)).
    destruct (assembled np_sum ee qg EE (fun i => G (EE i)) (B2R norm) (9002 * ka) (362 * ka + 702) Hsum row gap_rclose qg_ok ltac:(lra) ltac:(lra)) as (p & P & I0 & Q & J).
    exists p. split.
    { unfold gaussian_energy_spectrum64. rewrite (energies_map m s), map_length, seq_length. rewrite map2_map. exact P. }
    split; [exact I0|]. split; [|exact J]. intros i Hi. destruct (Q i Hi) as (A & B & C). split; [exact A|]. split; [exact B|]. unfold grid_density. eapply rclose_weaken; [|exact C]. lra.
  Qed.
End Gauss.
