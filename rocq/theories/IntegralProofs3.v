(** Lemmas for C85 (continued): functions on the rectangle, the sampled cells and the limit of small cells. *)
From Coq Require Import Reals Lra Lia ZArith List Bool.
From Coquelicot Require Import Coquelicot.
From Verif Require Import Base Space SpaceProofs SpecSpace Geometry GeometryProofs SpecGeometry SpecConvex ConvexProofs SpecGrid GridProofs GridProofs2 GridConvex SpecIntegral IntegralProofs IntegralProofs2.
Import ListNotations.
Open Scope R_scope.

(** ** Clamping *)
Definition clamp (lo hi t : R) : R := Rmax lo (Rmin hi t).
Lemma clamp_in lo hi t : lo <= hi -> lo <= clamp lo hi t <= hi.
Proof. intro H. unfold clamp, Rmax, Rmin. destruct (Rle_dec hi t), (Rle_dec lo _); lra. Qed.
Lemma clamp_id lo hi t : lo <= t <= hi -> clamp lo hi t = t.
Proof. intro H. unfold clamp, Rmax, Rmin. destruct (Rle_dec hi t), (Rle_dec lo _); lra. Qed.
Lemma clamp_near lo hi t u : Rabs (clamp lo hi t - clamp lo hi u) <= Rabs (t - u).
Proof. unfold clamp, Rmax, Rmin, Rabs. destruct (Rle_dec hi t), (Rle_dec hi u); repeat destruct (Rle_dec lo _); repeat destruct (Rcase_abs _); lra. Qed.

Lemma beyond r : exists N, r < INR N.
Proof.
  exists (Z.to_nat (Z.max 0 (up r))). rewrite INR_IZR_INZ, Z2Nat.id by lia. destruct (archimed r) as [A _]. apply Rlt_le_trans with (IZR (up r)); [lra|]. apply IZR_le. lia.
Qed.
Section Rectangle.
  Variables X Zlo Zhi : R.
  Hypothesis PX : 0 <= X.
  Hypothesis PZ : Zlo <= Zhi.
  Variable f : R -> R -> R.
  Hypothesis Hf : uniformly_continuous X Zlo Zhi f.
  Lemma unif_bounded : exists F, 0 <= F /\ forall x z, within X Zlo Zhi x z -> Rabs (f x z) <= F.
  Proof.
    destruct (Hf 1 ltac:(lra)) as (d & Pd & K). set (L := X + (Zhi - Zlo)). destruct (beyond (L / d + 1)) as [N HN].
    assert (PL : 0 <= L / d) by (apply Rmult_le_pos; [unfold L; lra|left; now apply Rinv_0_lt_compat]). assert (PN : 0 < INR N) by lra.
    assert (Q : L / INR N < d). { apply (Rmult_lt_reg_r (INR N)); [exact PN|]. unfold Rdiv. rewrite Rmult_assoc, Rinv_l, Rmult_1_r by lra. apply Rlt_le_trans with (d * (L / d + 1)); [|apply Rmult_le_compat_l; lra]. replace (d * (L / d + 1)) with (L + d) by (field; lra). lra. }
    exists (Rabs (f 0 Zlo) + INR N). split; [pose proof (Rabs_pos (f 0 Zlo)); lra|]. intros x z [Hx Hz].
    assert (A : forall k, (k <= N)%nat -> Rabs (f (x * (INR k / INR N)) (Zlo + (z - Zlo) * (INR k / INR N))) <= Rabs (f 0 Zlo) + INR k).
    { induction k as [|k IH]; intro Hk.
      - replace (INR 0 / INR N) with 0 by (cbn [INR]; field; lra). rewrite !Rmult_0_r, Rplus_0_r. cbn [INR]. lra.
      - specialize (IH ltac:(lia)). assert (Hk1 : INR (S k) <= INR N) by (apply le_INR; lia). rewrite S_INR in *. pose proof (pos_INR k) as Pk.
        set (t := INR k / INR N) in *. set (t' := (INR k + 1) / INR N). assert (Dt : t' - t = / INR N) by (unfold t, t'; field; lra). assert (Pi : 0 < / INR N) by now apply Rinv_0_lt_compat.
        assert (T0 : 0 <= t) by (unfold t; apply Rmult_le_pos; lra). assert (T1 : t' <= 1) by (unfold t'; apply (Rmult_le_reg_r (INR N)); [exact PN|]; unfold Rdiv; rewrite Rmult_assoc, Rinv_l; lra).
        assert (W : forall s, 0 <= s <= 1 -> within X Zlo Zhi (x * s) (Zlo + (z - Zlo) * s)).
        { intros s Hs. split.
          - split; [apply Rmult_le_pos; lra|]. apply Rle_trans with (x * 1); [apply Rmult_le_compat_l; lra|lra].
          - assert (0 <= (z - Zlo) * s) by (apply Rmult_le_pos; lra). assert ((z - Zlo) * s <= (z - Zlo) * 1) by (apply Rmult_le_compat_l; lra). lra. }
        assert (S1 : Rabs (f (x * t') (Zlo + (z - Zlo) * t') - f (x * t) (Zlo + (z - Zlo) * t)) < 1).
        { apply K; try (apply W; lra).
          - replace (x * t' - x * t) with (x * / INR N) by (rewrite <- Dt; ring). rewrite Rabs_pos_eq by (apply Rmult_le_pos; lra). eapply Rle_lt_trans; [|exact Q]. apply Rmult_le_compat_r; [lra|]. unfold L. lra.
          - replace (Zlo + (z - Zlo) * t' - (Zlo + (z - Zlo) * t)) with ((z - Zlo) * / INR N) by (rewrite <- Dt; ring). rewrite Rabs_pos_eq by (apply Rmult_le_pos; lra). eapply Rle_lt_trans; [|exact Q]. apply Rmult_le_compat_r; [lra|]. unfold L. lra. }
        replace (f (x * t') (Zlo + (z - Zlo) * t')) with (f (x * t) (Zlo + (z - Zlo) * t) + (f (x * t') (Zlo + (z - Zlo) * t') - f (x * t) (Zlo + (z - Zlo) * t))) by ring. eapply Rle_trans; [apply Rabs_triang|]. lra. }
    specialize (A N (le_n N)). replace (INR N / INR N) with 1 in A by (field; lra). rewrite !Rmult_1_r in A. replace (Zlo + (z - Zlo)) with z in A by ring. exact A.
  Qed.
  Definition gt (x z : R) : R := 2 * PI * clamp 0 X x * f (clamp 0 X x) (clamp Zlo Zhi z).
  Lemma gt_in x z : within X Zlo Zhi x z -> gt x z = 2 * PI * x * f x z.
  Proof. intros [H1 H2]. unfold gt. now rewrite !clamp_id by assumption. Qed.
  Lemma cl_in x z : within X Zlo Zhi (clamp 0 X x) (clamp Zlo Zhi z).
  Proof. split; now apply clamp_in. Qed.
  Variable F : R.
  Hypothesis PF : 0 <= F.
  Hypothesis HF : forall x z, within X Zlo Zhi x z -> Rabs (f x z) <= F.
  Lemma gt_bound x z : Rabs (gt x z) <= 2 * PI * X * F.
  Proof.
    pose proof PI_RGT_0. unfold gt. rewrite Rabs_mult. pose proof (clamp_in 0 X x PX). apply Rmult_le_compat; try apply Rabs_pos; [|apply HF, cl_in]. rewrite Rabs_pos_eq; [apply Rmult_le_compat_l; lra|apply Rmult_le_pos; lra].
  Qed.
  Lemma gt_mod x z x' z' e : Rabs (f (clamp 0 X x) (clamp Zlo Zhi z) - f (clamp 0 X x') (clamp Zlo Zhi z')) <= e -> Rabs (gt x z - gt x' z') <= 2 * PI * (X * e + F * Rabs (x - x')).
  Proof.
    intro He. pose proof PI_RGT_0 as Pp. unfold gt. set (u := clamp 0 X x). set (u' := clamp 0 X x'). fold u u' in He. set (p := f u _). set (p' := f u' _). fold p p' in He.
    replace (2 * PI * u * p - 2 * PI * u' * p') with (2 * PI * (u * (p - p') + (u - u') * p')) by ring. rewrite Rabs_mult, (Rabs_pos_eq (2 * PI)) by lra. apply Rmult_le_compat_l; [lra|].
    eapply Rle_trans; [apply Rabs_triang|]. pose proof (clamp_in 0 X x PX) as Hu. fold u in Hu. rewrite !Rabs_mult, (Rabs_pos_eq u) by lra. apply Rplus_le_compat.
    - apply Rmult_le_compat; [lra|apply Rabs_pos|lra|exact He].
    - rewrite Rmult_comm. apply Rmult_le_compat; try apply Rabs_pos; [apply HF, cl_in|apply clamp_near].
  Qed.
  Lemma gt_unif eps : 0 < eps -> exists del, 0 < del /\ forall x z x' z', Rabs (x - x') < del -> Rabs (z - z') < del -> Rabs (gt x z - gt x' z') < eps.
  Proof.
    intro He. pose proof PI_RGT_0 as Pp. set (e := eps / (4 * PI * (X + 1))). assert (Pe : 0 < e) by (apply Rdiv_lt_0_compat; [lra|apply Rmult_lt_0_compat; lra]).
    destruct (Hf e Pe) as (d & Pd & K). set (d2 := eps / (4 * PI * (F + 1))). assert (Pd2 : 0 < d2) by (apply Rdiv_lt_0_compat; [lra|apply Rmult_lt_0_compat; lra]).
    exists (Rmin d d2). split; [now apply Rmin_glb_lt|]. intros x z x' z' Hx Hz.
    assert (Q : Rabs (f (clamp 0 X x) (clamp Zlo Zhi z) - f (clamp 0 X x') (clamp Zlo Zhi z')) <= e).
    { left. apply K; try apply cl_in; eapply Rle_lt_trans; try apply clamp_near; eapply Rlt_le_trans; eauto; apply Rmin_l. }
    eapply Rle_lt_trans; [apply (gt_mod x z x' z' e Q)|].
    assert (D : Rabs (x - x') < d2) by (eapply Rlt_le_trans; [exact Hx|apply Rmin_r]).
    assert (A : 2 * PI * ((X + 1) * e) = eps / 2) by (unfold e; field; split; lra). assert (C : 2 * PI * ((F + 1) * d2) = eps / 2) by (unfold d2; field; split; lra).
    assert (F * Rabs (x - x') <= F * d2) by (apply Rmult_le_compat_l; lra).
    assert (2 * PI * (X * e + F * Rabs (x - x')) <= 2 * PI * (X * e + F * d2)) by (apply Rmult_le_compat_l; lra).
    assert (0 < 2 * PI * e) by (apply Rmult_lt_0_compat; lra). assert (0 < 2 * PI * d2) by (apply Rmult_lt_0_compat; lra). lra.
  Qed.
  (** The user's antiderivative is ours. *)
  Lemma G_unique G : (forall x z, within X Zlo Zhi x z -> is_RInt (fun t => 2 * PI * t * f t z) 0 x (G x z)) -> forall x z, within X Zlo Zhi x z -> G x z = Gh gt x z.
  Proof.
    intros HG x z W. symmetry. unfold Gh. apply is_RInt_unique. apply (is_RInt_ext (V := R_NormedModule) (fun t => 2 * PI * t * f t z)); [|now apply HG].
    intros t Ht. toR. destruct W as [W1 W2]. rewrite Rmin_left, Rmax_right in Ht by lra. rewrite gt_in; [reflexivity|split; [lra|exact W2]].
  Qed.
  Lemma G_ok x z : within X Zlo Zhi x z -> is_RInt (fun t => 2 * PI * t * f t z) 0 x (Gh gt x z).
  Proof.
    intro W. apply (is_RInt_ext (V := R_NormedModule) (fun t => gt t z)).
    - intros t Ht. toR. destruct W as [W1 W2]. rewrite Rmin_left, Rmax_right in Ht by lra. apply gt_in. split; [lra|exact W2].
    - unfold Gh. apply (RInt_correct (V := R_CompleteNormedModule)). apply cont1_ex. apply g_cont. apply gt_unif.
  Qed.
  Lemma path_ok l : l <> [] -> path_integral (Gh gt) l (edge_sum (Iedge gt) l).
  Proof.
    induction l as [|a l IH]; [congruence|]. intros _. destruct l as [|b l]; [constructor|]. rewrite edge_sum_cons. constructor; [|apply IH; discriminate]. apply (Iedge_ok gt (2 * PI * X * F)); [exact gt_bound|exact gt_unif].
  Qed.
  Lemma seg_in a b t : 0 <= t <= 1 -> within X Zlo Zhi (fst a) (snd a) -> within X Zlo Zhi (fst b) (snd b) -> within X Zlo Zhi (fst a + t * (fst b - fst a)) (snd a + t * (snd b - snd a)).
  Proof.
    intros Ht [A1 A2] [B1 B2]. assert (Q : forall lo hi p q, lo <= p <= hi -> lo <= q <= hi -> lo <= p + t * (q - p) <= hi).
    { intros lo hi p q Hp Hq. replace (p + t * (q - p)) with ((1 - t) * p + t * q) by ring. assert ((1 - t) * lo <= (1 - t) * p) by (apply Rmult_le_compat_l; lra). assert ((1 - t) * p <= (1 - t) * hi) by (apply Rmult_le_compat_l; lra). assert (t * lo <= t * q) by (apply Rmult_le_compat_l; lra). assert (t * q <= t * hi) by (apply Rmult_le_compat_l; lra). lra. }
    split; now apply Q.
  Qed.
  Lemma path_unique G l J : (forall x z, within X Zlo Zhi x z -> G x z = Gh gt x z) -> (forall v, In v l -> within X Zlo Zhi (fst v) (snd v)) -> path_integral G l J -> J = edge_sum (Iedge gt) l.
  Proof.
    intros HG Hb P. induction P as [p|p q l v w He P IH]; [reflexivity|]. rewrite edge_sum_cons, <- IH by (intros; apply Hb; now right). f_equal.
    pose proof (Iedge_ok gt (2 * PI * X * F) gt_bound gt_unif p q) as Q. unfold edge_integral in *. rewrite <- (is_RInt_unique _ _ _ _ He), <- (is_RInt_unique _ _ _ _ Q). apply RInt_ext. intros t Ht. rewrite Rmin_left, Rmax_right in Ht by lra. toR. f_equal. apply HG. apply seg_in; [lra|apply Hb; now left|apply Hb; right; now left].
  Qed.

  (** ** The sampled cells *)
  Variable l : list (R * R).
  Variable s : Z.
  Variable ex : list (R * R).
  Hypothesis Hs : loop l /\ (s = 1%Z \/ s = (-1)%Z) /\ forall p n, ~ In p ex -> winds p l n -> n = 0%Z \/ n = s.
  Hypothesis Hb : forall v, In v l -> within X Zlo Zhi (fst v) (snd v).
  Lemma round_sense : (IZR s = 1 \/ IZR s = -1) /\ sense ex (IZR s) l.
  Proof.
    destruct Hs as (L & S1 & W). split; [destruct S1 as [->| ->]; [now left|now right]|]. intros p Np. destruct (winds_ex p l (loop_nonempty l L)) as (n & Wn & E & P). rewrite (inside_parity l p L), <- P, <- E. destruct (W p n Np Wn) as [->| ->]; [cbn; lra|]. destruct S1 as [->| ->]; cbn; lra.
  Qed.
    Lemma centers_row2 coords o h : 0 < h -> coords <> [] -> exists x0 M, centers coords o h = Ok (row x0 h M) /\ (forall v, In v coords -> x0 < v < node x0 h M) /\ exists v, In v coords /\ v - 2 * h <= x0.
  Proof.
    intros Hh N. destruct (centers_ok coords o h N) as [cs E]. revert E. unfold centers. destruct (np_min coords) as [lo| |] eqn:L; cbn [bind]; try discriminate. destruct (np_max coords) as [hi| |] eqn:U; cbn [bind]; try discriminate. intros _.
    set (d := py_mod (o - (lo - 2 * h)) h). assert (D : 0 <= d < h).
    { unfold d, py_mod. set (q := (o - (lo - 2 * h)) / h). destruct (Int_part_spec q) as [A B]. assert (q * h = o - (lo - 2 * h)) by (unfold q; field; lra). nra. }
    set (st := lo - 2 * h + (d - 0.5 * h)). set (n := Z.to_nat (Rceil ((hi + 2 * h - st) / h))). exists (st + 0.5 * h), n. split; [|split].
    - f_equal. unfold arange, row. fold st n. rewrite map_map. apply map_ext. intro i. unfold node. ring.
    - intros v Hv. pose proof (min_le _ _ _ L Hv) as A. pose proof (max_ge _ _ _ U Hv) as B. split; [unfold st; lra|]. unfold node.
      destruct (Rceil_spec ((hi + 2 * h - st) / h)) as [C _]. assert (Q : (hi + 2 * h - st) / h * h = hi + 2 * h - st) by (field; lra).
      assert (0 <= (hi + 2 * h - st) / h) by (apply Rmult_le_pos; [unfold st; lra|left; now apply Rinv_0_lt_compat]).
      assert (0 <= Rceil ((hi + 2 * h - st) / h))%Z. { apply le_IZR. lra. }
      unfold n. rewrite INR_IZR_INZ, Z2Nat.id by assumption. nra.
    - exists lo. split; [exact (proj1 (np_min_spec coords lo L))|]. unfold st. lra.
  Qed.
  Definition rate_coef : R := edge_sum (ecoef (2 * PI * X * F) X) l + ((X + 3) + 2 * PI * X * F) * INR (length l) * (Zhi - Zlo + 1) + INR (length ex) * ((INR (length l) + 1) * (2 * PI * X * F)).
  Lemma rate_coef_pos : 0 <= rate_coef.
  Proof.
    pose proof PI_RGT_0 as Pp. assert (PB : 0 <= 2 * PI * X * F) by (apply Rmult_le_pos; [apply Rmult_le_pos; lra|lra]). unfold rate_coef.
    assert (0 <= edge_sum (ecoef (2 * PI * X * F) X) l).
    { apply edge_sum_edges. intros a b _. unfold ecoef. assert (0 <= slope a b) by apply Rabs_pos. pose proof (Rabs_pos (snd b - snd a)). assert (0 <= 2 * PI * X * F * slope a b) by now apply Rmult_le_pos. assert (0 <= (Rabs (snd b - snd a) + 1) * (2 * PI * X * F * slope a b + X)) by (apply Rmult_le_pos; lra). assert (0 <= (X + slope a b) * (2 * PI * X * F)) by (apply Rmult_le_pos; lra). lra. }
    assert (0 <= (X + 3 + 2 * PI * X * F) * INR (length l) * (Zhi - Zlo + 1)) by (apply Rmult_le_pos; [apply Rmult_le_pos; [lra|apply pos_INR]|lra]).
    assert (0 <= INR (length ex) * ((INR (length l) + 1) * (2 * PI * X * F))) by (apply Rmult_le_pos; [apply pos_INR|]; apply Rmult_le_pos; [pose proof (pos_INR (length l)); lra|exact PB]). lra.
  Qed.
  Lemma total_near I o h ss w : volume_integral X Zlo Zhi f s l I -> 0 < h <= 1 -> sample_space_2d mpl_inside l o h = Ok ss ->
    (forall x z x' z', Rabs (x - x') <= h / 2 -> Rabs (z - z') <= h / 2 -> Rabs (gt x z - gt x' z') <= w) -> Rabs (sum_over_cells f ss - I) <= (h + w) * rate_coef.
  Proof.
    intros (G & J & HG & PJ & ->) [Hh Hh1] E Hw. pose proof Hs as (L & S1 & W). pose proof (loop_nonempty l L) as Ne. destruct round_sense as [R1 R2].
    rewrite (path_unique G l J (G_unique G HG) Hb PJ).
    destruct (sample_cases mpl_inside l o h Hh) as [[E0 _]|(xs & zs & Ex & Ez & Fc)]; [congruence|]. rewrite Fc in E. injection E as <-.
    destruct (centers_row2 (map fst l) (fst o) h Hh) as (x0 & M & Rx & Bx & vx & Ivx & Lx); [destruct l; [congruence|discriminate]|].
    destruct (centers_row2 (map snd l) (snd o) h Hh) as (z0 & K & Rz & Bz & _); [destruct l; [congruence|discriminate]|].
    rewrite Ex in Rx. rewrite Ez in Rz. injection Rx as ->. injection Rz as ->.
    destruct (min_snd l Ne) as (va & Ia & Mi). destruct (max_snd l Ne) as (vb & Ib & Ma).
    assert (HX : forall v, In v l -> x0 < fst v < node x0 h M /\ 0 <= fst v <= X) by (intros v Hv; split; [apply Bx, in_map, Hv|now apply Hb]).
    assert (HZ : forall v, In v l -> z0 <= snd v < node z0 h K /\ snd va <= snd v <= snd vb).
    { intros v Hv. split; [specialize (Bz (snd v) (in_map snd l v Hv)); lra|]. split; [now apply Mi|now apply Ma]. }
    pose proof (Bz _ (in_map snd l va Ia)). pose proof (Bz _ (in_map snd l vb Ib)). pose proof (Mi vb Ib).
    assert (HX0 : - (2 * h) <= x0). { apply in_map_iff in Ivx. destruct Ivx as (v & <- & Iv). destruct (Hb v Iv) as [[A _] _]. lra. }
    pose proof (csum_bound gt (2 * PI * X * F) gt_bound gt_unif l L x0 z0 h X (snd va) (snd vb) w M K (length l) Hh HX HX0 HZ ltac:(lra) ltac:(lra) ltac:(lra) (fun z n => crossed_length z l n) Hw Hh1 ex (IZR s) R1 R2) as Q.
    replace (csum gt l x0 z0 h M K) with (sum_over_cells f (map (fun p => (fst p, snd p, 2 * PI * fst p * (h * h))) (filter (mpl_inside l) (mesh (row x0 h M) (row z0 h K))))) in Q.
    - eapply Rle_trans; [exact Q|]. assert (0 <= w) by (eapply Rle_trans; [apply Rabs_pos|]; apply (Hw 0 0 0 0); replace (0 - 0) with 0 by ring; rewrite Rabs_R0; lra). apply Rmult_le_compat_l; [lra|]. unfold coef, rate_coef. apply Rplus_le_compat_r. apply Rplus_le_compat_l.
      pose proof PI_RGT_0 as Pp. assert (PB : 0 <= 2 * PI * X * F) by (apply Rmult_le_pos; [apply Rmult_le_pos; lra|lra]). apply Rmult_le_compat_l; [apply Rmult_le_pos; [lra|apply pos_INR]|]. destruct (Hb va Ia). destruct (Hb vb Ib). lra.
    - unfold csum. change (sum_over_cells f ?ss) with (sumf (fun t => f (sx t) (sz t) * svol t) ss). rewrite sumf_map. apply sumf_ext. intros [x z] Hp. apply filter_In in Hp. destruct Hp as [_ Hp]. apply mpl_inside_box in Hp. cbn [fst snd] in Hp. destruct Hp as ((v1 & I1 & A1) & (v2 & I2 & A2) & (v3 & I3 & A3) & (v4 & I4 & A4)).
      destruct (Hb v1 I1), (Hb v2 I2), (Hb v3 I3), (Hb v4 I4). unfold sx, sz, svol. cbn [fst snd]. rewrite gt_in by (split; lra). ring.
  Qed.
End Rectangle.
