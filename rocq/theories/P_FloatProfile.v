(** C101: the profiles as numpy computes them, in binary64. *)
From Coq Require Import ZArith Bool Reals Lra Lia List.
From Flocq Require Import Core.Core IEEE754.BinarySingleNaN.
From Verif Require Import Base FloatComp FloatCompProofs FloatCompAcc FloatSource FloatSpace FloatSpaceProofs.
From Verif Require Import SpecProfile Profile ProfileProofs FloatProfile SpecFloatProfile FloatProfileProofs FloatPedProofs FloatTableProofs P_FloatReactivity.
Open Scope R_scope.
Local Notation bp := (bpow radix2).

Lemma moderate_nz x : moderate x -> x <> 0.
Proof. intros H E. subst. apply moderate_bp in H. rewrite Rabs_R0 in H. pose proof (bpow_gt_0 radix2 (-90)). lra. Qed.
Lemma unit_scale k : is_finite k = true -> moderate (B2R k) -> fmul f1 k = k.
Proof.
  intros F M. destruct (fmul_unit_l k F) as [A B]. pose proof (moderate_nz _ M) as N.
  apply B2R_inj; [| |exact B].
  - destruct (fmul f1 k); try reflexivity; cbn in *; try discriminate; congruence.
  - destruct k; try reflexivity; cbn in *; try discriminate; congruence.
Qed.

(** The parabola: always a finite number, never below 0 nor above the centre value (for non-negative values), exactly the centre value at the
    centre and exactly 0 from the edge on, and elsewhere the textbook value up to rounding errors; the second term is what an error of 5 roundings
    inside the outer power can become (5 alpha u, but (5 u)^alpha for alpha < 1, because the slope is infinite at the edge). *)
Theorem C101_parabola : forall fused pow core alpha beta k rho, power_of_unit pow ->
  finite core -> finite alpha -> finite beta -> finite k -> finite rho ->
  moderate (B2R core) -> moderate (B2R k) -> 0 < B2R alpha -> 0 < B2R beta ->
  exists v, value64 fused pow (set_scale64 k (parabolic_profile64 core alpha beta)) rho = Ok v /\ finite v /\
    Rabs (B2R v - B2R k * parabola (B2R core) (B2R alpha) (B2R beta) (clamp01 (B2R rho))) <=
      Rabs (B2R k * B2R core) * (6 * unit_roundoff + power_gap (B2R alpha) (5 * unit_roundoff)) /\
    (0 <= B2R k -> 0 <= B2R core -> 0 <= B2R v <= B2R (fmul k core)) /\
    (B2R rho <= 0 -> B2R v = B2R (fmul k core)) /\ (1 <= B2R rho -> B2R v = 0).
Proof.
  intros fused pow core alpha beta k rho Hp Fc Fa Fb Fk Fr Mc Mk Pa Pb. unfold parabolic_profile64, set_scale64. rewrite (unit_scale k Fk Mk).
  now apply parab_ok.
Qed.
Print Assumptions C101_parabola.

(** If the power function of the platform keeps the order of its bases, rounding never makes the profile rise outwards. *)
Theorem C101_parabola_falls : forall fused pow core alpha beta k rho rho' v v', power_of_unit pow -> power_monotone pow ->
  finite core -> finite alpha -> finite beta -> finite k -> finite rho -> finite rho' ->
  moderate (B2R core) -> moderate (B2R k) -> 0 < B2R alpha -> 0 < B2R beta -> 0 <= B2R k -> 0 <= B2R core -> B2R rho <= B2R rho' ->
  value64 fused pow (set_scale64 k (parabolic_profile64 core alpha beta)) rho = Ok v ->
  value64 fused pow (set_scale64 k (parabolic_profile64 core alpha beta)) rho' = Ok v' -> B2R v' <= B2R v.
Proof.
  intros fused pow core alpha beta k rho rho' v v' Hp Hm Fc Fa Fb Fk Fr Fr' Mc Mk Pa Pb Pk Pc L. unfold parabolic_profile64, set_scale64. rewrite (unit_scale k Fk Mk). intros E E'.
  exact (parab_mono pow Hp fused core alpha beta k rho rho' v v' Fc Fa Fb Fk Fr Fr' Mc Mk Pa Pb Pk Pc Hm L E E').
Qed.
Print Assumptions C101_parabola_falls.

(** The parabola on a pedestal: always a finite number, between the smallest and the largest of the three values up to 21 roundings, the separatrix
    value exactly from the edge on, the centre value up to 21 roundings at the centre, and everywhere the textbook value up to rounding errors. *)
Theorem C101_pedestal : forall fused pow core ped sep alpha beta rho_ped k rho M, power_of_unit pow ->
  finite core -> finite ped -> finite sep -> finite alpha -> finite beta -> finite rho_ped -> finite k -> finite rho ->
  0 <= M -> moderate M -> Rabs (B2R core) <= M -> Rabs (B2R ped) <= M -> Rabs (B2R sep) <= M -> moderate (B2R k) -> 0 < B2R alpha -> 0 < B2R beta ->
  let rp := clamp01 (B2R rho_ped) in
  let lo := Rmin (B2R core) (Rmin (B2R ped) (B2R sep)) in
  let hi := Rmax (B2R core) (Rmax (B2R ped) (B2R sep)) in
  exists v, value64 fused pow (set_scale64 k (pedestal_profile64 core ped sep alpha beta rho_ped)) rho = Ok v /\ finite v /\
    Rabs (B2R v - B2R k * parabola_on_pedestal (B2R core) (B2R ped) (B2R sep) (B2R alpha) (B2R beta) rp (clamp01 (B2R rho))) <=
      Rabs (B2R k) * M * (21 * unit_roundoff + 2 * power_gap (B2R alpha) (5 * unit_roundoff + power_gap (B2R beta) unit_roundoff)) /\
    (exists x, lo <= x <= hi /\ Rabs (B2R v - B2R k * x) <= Rabs (B2R k) * M * (21 * unit_roundoff)) /\
    (B2R rho <= 0 < rp -> Rabs (B2R v - B2R k * B2R core) <= Rabs (B2R k) * M * (21 * unit_roundoff)) /\
    (1 <= B2R rho -> B2R v = B2R (fmul sep k)).
Proof.
  intros fused pow core ped sep alpha beta rho_ped k rho M Hp Fc Fd Fs Fa Fb Frp Fk Fr PM MM Bc Bd Bs Mk Pa Pb rp lo hi. rewrite roundoff_uu. unfold pedestal_profile64, set_scale64. rewrite (unit_scale k Fk Mk). unfold value64.
  destruct (clip_val rho_ped Frp) as [Fq Vq]. fold rp in Vq. destruct (clip_val rho Fr) as [Fr' Vr]. set (q := clip64 f0 f1 rho_ped) in *. set (r := clip64 f0 f1 rho) in *.
  pose proof (clamp_range (B2R rho)) as Rr. rewrite <- Vr in Rr |- *. pose proof (clamp_range (B2R rho_ped)) as Rq. fold rp in Rq. rewrite <- Vq in Rq |- *. clearbody rp. clear Vq rp.
  pose proof uu_small as U. assert (UM : 0 <= uu * M) by (apply Rmult_le_pos; lra). pose proof (Rabs_pos (B2R k)) as Pk.
  pose proof (moderate_scale2 _ _ Mk MM) as Sk. rewrite (Rabs_pos_eq M) in Sk by exact PM.
  assert (Fin : forall s, is_finite s = true -> Rabs (B2R s) <= 4 * M -> is_finite (fmul s k) = true /\ B2R (fmul s k) = rnd (B2R s * B2R k) /\ Rabs (B2R (fmul s k) - B2R k * B2R s) <= 4 * uu * (Rabs (B2R k) * M)).
  { intros s Fs' Bs'. assert (L : Rabs (B2R s * B2R k) <= 4 * (Rabs (B2R k) * M)) by (rewrite Rabs_mult; nra).
    destruct (rnd_err _ 4 _ Sk (k30 4 ltac:(lra)) L) as [E Lt]. destruct (fmul_value s k Fs' Fk Lt) as [A B]. split; [exact A|]. split; [exact B|]. rewrite B, (Rmult_comm (B2R k)). lra. }
  assert (Far : forall s x e, is_finite s = true -> Rabs (B2R s) <= 4 * M -> Rabs (B2R s - x) <= M * e -> Rabs (B2R (fmul s k) - B2R k * x) <= Rabs (B2R k) * M * (4 * uu + e)).
  { intros s x e Fs' Bs' He. destruct (Fin s Fs' Bs') as (_ & _ & E). replace (B2R (fmul s k) - B2R k * x) with ((B2R (fmul s k) - B2R k * B2R s) + B2R k * (B2R s - x)) by ring.
    eapply Rle_trans; [apply Rabs_triang|]. rewrite (Rabs_mult (B2R k)). assert (Rabs (B2R k) * Rabs (B2R s - x) <= Rabs (B2R k) * (M * e)) by (now apply Rmult_le_compat_l). lra. }
  set (g := power_gap (B2R alpha) (5 * uu + power_gap (B2R beta) uu)). pose proof (gap_nonneg (B2R alpha) (5 * uu + power_gap (B2R beta) uu)) as Pg. fold g in Pg.
  assert (KM : 0 <= Rabs (B2R k) * M) by (now apply Rmult_le_pos).
  assert (Lohi : forall a b t, lo <= a <= hi -> lo <= b <= hi -> 0 <= t <= 1 -> lo <= a + (b - a) * t <= hi).
  { intros a b t Ha Hb Ht. split; nra. }
  assert (Lc : lo <= B2R core <= hi) by (unfold lo, hi; split; [apply Rmin_l|apply Rmax_l]).
  assert (Ld : lo <= B2R ped <= hi). { unfold lo, hi. split; [eapply Rle_trans; [apply Rmin_r|apply Rmin_l]|eapply Rle_trans; [|apply Rmax_r]; apply Rmax_l]. }
  assert (Ls : lo <= B2R sep <= hi). { unfold lo, hi. split; [eapply Rle_trans; [apply Rmin_r|apply Rmin_r]|eapply Rle_trans; [|apply Rmax_r]; apply Rmax_r]. }
  assert (Z0 : B2R rho <= 0 -> B2R r = 0) by (intro; rewrite Vr; unfold clamp01; rewrite Rmax_right, Rmin_left; lra).
  assert (Z1 : 1 <= B2R rho -> B2R r = 1) by (intro; rewrite Vr; unfold clamp01; rewrite Rmax_left, Rmin_right; lra).
  cbv zeta. destruct (Bltb r q) eqn:Lt.
  - apply ltb_val in Lt; [|assumption..]. destruct (core_ok pow Hp core ped alpha beta q r M) as (Fv & Bv & Ev & (t & Ht & Et) & E0); try assumption; try lra.
    cbv zeta in *. set (s := fadd ped _) in *. exists (fmul s k). split; [reflexivity|]. split; [apply (Fin s Fv Bv)|]. split; [|split; [|split]].
    + unfold parabola_on_pedestal. destruct (Rlt_dec (B2R r) (B2R q)) as [_|N]; [|lra]. eapply Rle_trans; [apply (Far s _ _ Fv Bv Ev)|]. fold g. right. ring.
    + exists (B2R ped + (B2R core - B2R ped) * t). split; [now apply Lohi|]. eapply Rle_trans; [apply (Far s _ (9 * uu) Fv Bv); lra|]. apply Rmult_le_compat_l; lra.
    + intros [Hr _]. eapply Rle_trans; [apply (Far s _ (9 * uu) Fv Bv)|apply Rmult_le_compat_l; lra]. specialize (E0 (Z0 Hr)). lra.
    + intro Hr. rewrite (Z1 Hr) in Lt. lra.
  - apply ltb_val_f in Lt; [|assumption..]. destruct (Beqb q f1) eqn:Q1.
    + apply eqb_val in Q1; [|assumption|reflexivity]. rewrite (proj2 f1_val) in Q1. assert (R1 : B2R r = 1) by lra. assert (Bs4 : Rabs (B2R sep) <= 4 * M) by lra.
      assert (E : Rabs (B2R (fmul sep k) - B2R k * B2R sep) <= Rabs (B2R k) * M * (4 * uu + 0)) by (apply Far; [exact Fs|exact Bs4|rewrite Rminus_eq_0, Rabs_R0; lra]).
      exists (fmul sep k). split; [reflexivity|]. split; [apply (Fin sep Fs Bs4)|]. split; [|split; [|split]].
      * unfold parabola_on_pedestal. rewrite R1, Q1. destruct (Rlt_dec 1 1) as [N|_]; [lra|]. replace (B2R sep + (B2R ped - B2R sep) * ((1 - 1) / (1 - 1))) with (B2R sep) by (unfold Rdiv; rewrite Rminus_eq_0; ring).
        eapply Rle_trans; [exact E|]. apply Rmult_le_compat_l; lra.
      * exists (B2R sep). split; [exact Ls|]. eapply Rle_trans; [exact E|]. apply Rmult_le_compat_l; lra.
      * intros [Hr _]. rewrite (Z0 Hr) in R1. lra.
      * reflexivity.
    + apply eqb_val_f in Q1; [|assumption|reflexivity]. rewrite (proj2 f1_val) in Q1.
      destruct (ped_ok ped sep q r M) as (Fv & Bv & Ev & E1); try assumption; try lra. cbv zeta in *. set (s := fadd sep _) in *.
      assert (T01 : 0 <= (1 - B2R r) / (1 - B2R q) <= 1). { split; [apply Rmult_le_pos; [lra|left; apply Rinv_0_lt_compat; lra]|]. apply (Rmult_le_reg_r (1 - B2R q)); [lra|]. unfold Rdiv. rewrite Rmult_assoc, Rinv_l; lra. }
      exists (fmul s k). split; [reflexivity|]. split; [apply (Fin s Fv Bv)|]. split; [|split; [|split]].
      * unfold parabola_on_pedestal. destruct (Rlt_dec (B2R r) (B2R q)) as [N|_]; [lra|]. eapply Rle_trans; [apply (Far s _ (17 * uu) Fv Bv); lra|]. apply Rmult_le_compat_l; lra.
      * exists (B2R sep + (B2R ped - B2R sep) * ((1 - B2R r) / (1 - B2R q))). split; [now apply Lohi|]. eapply Rle_trans; [apply (Far s _ (17 * uu) Fv Bv); lra|]. apply Rmult_le_compat_l; lra.
      * intros [Hr Hq]. rewrite (Z0 Hr) in Lt. lra.
      * intro Hr. destruct (Fin s Fv Bv) as (_ & V & _). destruct (Fin sep Fs ltac:(lra)) as (_ & V' & _). rewrite V, V', (E1 (Z1 Hr)). reflexivity.
Qed.
Print Assumptions C101_pedestal.

(** Tabulated profiles: ValueError exactly outside the table; at a radius of the table exactly scale times the tabulated value; between two
    neighbouring radii the straight line up to 21 roundings of the largest value, for either way of computing the product and the sum. *)
Theorem C101_table : forall fused pow t k rho M, t <> [] -> 0 <= M -> moderate M -> sane_table t M -> finite k -> moderate (B2R k) -> finite rho ->
  let x := clamp01 (B2R rho) in
  exists p, data_profile64 (map snd t) (map fst t) k = Ok p /\
    (~ inside_table (real_rows t) x -> value64 fused pow p rho = Err EValue) /\
    (inside_table (real_rows t) x -> exists v, value64 fused pow p rho = Ok v /\ finite v /\
      (forall r y, In (r, y) t -> B2R r = x -> v = fmul k y) /\
      (forall x0 y0 x1 y1, neighbours (real_rows t) (x0, y0) (x1, y1) -> x0 < x < x1 ->
         Rabs (B2R v - B2R k * (y0 + (y1 - y0) * ((x - x0) / (x1 - x0)))) <= Rabs (B2R k) * M * (21 * unit_roundoff))).
Proof.
  intros fused pow t k rho M Hne PM MM Ht Fk Mk Fr x. rewrite roundoff_uu.
  assert (Ec : combine (map fst t) (map snd t) = t) by (clear; induction t as [|[a b] t IH]; cbn [map combine fst snd]; congruence).
  exists (PData64 (sort_rows64 t) k). split.
  { unfold data_profile64. rewrite !map_length, Nat.eqb_refl. destruct t as [|p0 t0]; [contradiction|]. exact (f_equal (fun l => Ok (PData64 (sort_rows64 l) k)) Ec). }
  unfold value64. destruct (clip_val rho Fr) as [Fv Vv]. fold x in Vv. set (v := clip64 f0 f1 rho) in *.
  pose proof (table_ok fused M t v MM PM Fv Hne Ht) as T. cbv zeta. destruct (interp1d_call64 fused (sort_rows64 t) v) as [r|e|]; [| |contradiction].
  - destruct T as (Fi & In_ & Bd & Nd & Ln). rewrite Vv in In_, Nd, Ln. split; [contradiction|]. intros _. cbn [bind].
    pose proof (moderate_scale2 _ _ Mk MM) as Sk. rewrite (Rabs_pos_eq M) in Sk by exact PM.
    destruct (scaled_ok k r 0 M 4 Fk Fi Sk) as (Fs & Vs & Es); try (rewrite ?Rabs_R0; lra).
    exists (fmul k r). split; [reflexivity|]. split; [exact Fs|]. split.
    + intros a y Hi E. now rewrite (Nd a y Hi E).
    + intros x0 y0 x1 y1 Hn Hx. specialize (Ln _ _ Hn Hx). unfold line in Ln. cbn [fst snd] in Ln. set (z := y0 + (y1 - y0) * ((x - x0) / (x1 - x0))) in *.
      replace (B2R (fmul k r) - B2R k * z) with ((B2R (fmul k r) - B2R k * B2R r) + B2R k * (B2R r - z)) by ring. eapply Rle_trans; [apply Rabs_triang|]. rewrite (Rabs_mult (B2R k)).
      assert (Rabs (B2R k) * Rabs (B2R r - z) <= Rabs (B2R k) * (17 * uu * M)) by (apply Rmult_le_compat_l; [apply Rabs_pos|exact Ln]). lra.
  - destruct T as [-> No]. rewrite Vv in No. split; [reflexivity|]. contradiction.
Qed.
Print Assumptions C101_table.

(** Arrays are handled element by element, in order; an error in one element is an error. *)
Theorem C101_arrays : forall fused vpow p rhos vs, values64 fused vpow p rhos = Ok vs <->
  length vs = length rhos /\ forall i rho, nth_error rhos i = Some rho -> exists v, nth_error vs i = Some v /\ value64 fused (vpow i) p rho = Ok v.
Proof.
  intros fused vpow p rhos vs. unfold values64. rewrite mapM_Ok_Forall2.
  assert (G : forall rhos n vs, Forall2 (fun ir v => value64 fused (vpow (fst ir)) p (snd ir) = Ok v) (combine (seq n (length rhos)) rhos) vs <->
    length vs = length rhos /\ forall i rho, nth_error rhos i = Some rho -> exists v, nth_error vs i = Some v /\ value64 fused (vpow (n + i)%nat) p rho = Ok v); [|apply (G rhos 0%nat vs)].
  clear. induction rhos as [|a l IH]; intros n vs; cbn [length seq combine].
  - split; [intro H; inversion H; split; [reflexivity|]; intros [|i]; discriminate|]. intros [H _]. destruct vs; [constructor|discriminate].
  - split.
    + intro H. inversion H as [|? v ? vs' Hv Hl]; subst. apply IH in Hl. destruct Hl as [Hl Hi]. split; [cbn; now rewrite Hl|]. intros [|i] rho E; cbn [nth_error] in *.
      * injection E as <-. exists v. split; [reflexivity|]. rewrite Nat.add_0_r. exact Hv.
      * replace (n + S i)%nat with (S n + i)%nat by lia. now apply Hi.
    + intros [Hl Hi]. destruct vs as [|v vs]; [discriminate|]. injection Hl as Hl. constructor.
      * destruct (Hi 0%nat a eq_refl) as (v' & E & Hv). injection E as <-. rewrite Nat.add_0_r in Hv. exact Hv.
      * apply IH. split; [exact Hl|]. intros i rho E. replace (S n + i)%nat with (n + S i)%nat by lia. now apply (Hi (S i) rho).
Qed.
Print Assumptions C101_arrays.

(** ** The hypotheses are met *)
Definition unit_pow (x y : f64) : f64 := nearest (pw (B2R x) (B2R y)).
Lemma nearest_unit x : 0 <= x <= 1 -> is_finite (nearest x) = true /\ B2R (nearest x) = rnd x.
Proof.
  intro H. pose proof (binary_normalize_correct 53 1024 Hprec64 Hmax64 mode_NE (ZnearestE (scaled_mantissa radix2 (FLT_exp (-1074) 53) x)) (cexp radix2 (FLT_exp (-1074) 53) x) false) as N. cbv zeta in N. rewrite fexp64 in N. change (round_mode mode_NE) with ZnearestE in N.
  change (F2R {| Fnum := ZnearestE (scaled_mantissa radix2 (FLT_exp (-1074) 53) x); Fexp := cexp radix2 (FLT_exp (-1074) 53) x |}) with (rnd x) in N.
  assert (I : rnd (rnd x) = rnd x) by (apply rnd_id; apply generic_format_round; [apply FLT_exp_valid; reflexivity|apply valid_rnd_N]). rewrite I in N.
  pose proof (rnd_unit x H) as B. rewrite Rlt_bool_true in N; [destruct N as (V & F & _); auto|]. rewrite Rabs_pos_eq by lra. apply Rle_lt_trans with 1; [lra|]. change 1 with (bp 0). apply bpow_lt. lia.
Qed.
Example C101_power : power_of_unit unit_pow /\ power_monotone unit_pow.
Proof.
  split.
  - intros x y Fx Fy Hx Hy. assert (H : 0 <= pw (B2R x) (B2R y) <= 1) by (split; [apply pw_nonneg|apply pw_le1; lra]). destruct (nearest_unit _ H) as [F V]. unfold unit_pow. rewrite V.
    split; [exact F|]. split; [now apply rnd_unit|]. split.
    + pose proof (rnd_unit_err _ H). rewrite roundoff_uu. pose proof uu_small. lra.
    + split; intros ->; [rewrite pw_0; apply rnd_0|rewrite pw_1; apply rnd_id, fmt_1].
  - intros x x' y Fx Fx' Fy H0 H1 H2 Hy. assert (A : 0 <= pw (B2R x) (B2R y) <= 1) by (split; [apply pw_nonneg|apply pw_le1; lra]). assert (A' : 0 <= pw (B2R x') (B2R y) <= 1) by (split; [apply pw_nonneg|apply pw_le1; lra]).
    unfold unit_pow. rewrite (proj2 (nearest_unit _ A)), (proj2 (nearest_unit _ A')). apply rnd_mono, pw_mono; lra.
Qed.
Lemma int_mod n : (0 < Z.abs n < 2 ^ 53)%Z -> is_finite (f64_of_Z n) = true /\ B2R (f64_of_Z n) = IZR n /\ moderate (B2R (f64_of_Z n)).
Proof.
  intro H. destruct (f64_of_Z_exact n) as [F V]; [lia|]. split; [exact F|]. split; [exact V|]. rewrite V. unfold moderate. rewrite <- abs_IZR. split.
  - apply Rle_trans with 1; [|apply IZR_le; lia]. rewrite <- Rinv_1. apply Rinv_le_contravar; [lra|]. apply IZR_le. lia.
  - apply IZR_le. apply Z.le_trans with (2 ^ 53)%Z; lia.
Qed.
(** A parabola of 26 keV with alpha = beta = 2, in units of 1000, at an inner radius; with a pedestal of 6 keV and an edge of 1 keV; and as a table. *)
Example C101_hypotheses : let n := f64_of_Z in
  (exists v, value64 true unit_pow (set_scale64 (n 1000%Z) (parabolic_profile64 (n 26%Z) (n 2%Z) (n 2%Z))) f_half = Ok v /\ finite v) /\
  (exists v, value64 true unit_pow (set_scale64 (n 1000%Z) (pedestal_profile64 (n 26%Z) (n 6%Z) (n 1%Z) (n 2%Z) (n 2%Z) f_half)) f1 = Ok v /\ B2R v = B2R (fmul (n 1%Z) (n 1000%Z))) /\
  sane_table [(n 1%Z, n 5%Z); (f0, n 26%Z)] 26 /\ inside_table (real_rows [(n 1%Z, n 5%Z); (f0, n 26%Z)]) (clamp01 (B2R f_half)).
Proof.
  intro n. destruct (int_mod 26) as (F26 & V26 & M26); [lia|]. destruct (int_mod 2) as (F2 & V2 & _); [lia|]. destruct (int_mod 1000) as (Fk & Vk & Mk); [lia|]. destruct (int_mod 6) as (F6 & V6 & _); [lia|].
  destruct (int_mod 1) as (F1 & V1 & M1); [lia|]. destruct (int_mod 5) as (F5 & V5 & _); [lia|]. fold n in F26, V26, M26, F2, V2, Fk, Vk, Mk, F6, V6, F1, V1, M1, F5, V5.
  destruct (normalize_exact 1 (-1) false) as [Fh Vh]; [lia|lia|]. fold f_half in Fh, Vh. change (bp (-1)) with (/ 2) in Vh.
  assert (MM : moderate 26) by (rewrite <- V26; exact M26). destruct C101_power as [Hp Hm]. split; [|split; [|split]].
  - destruct (C101_parabola true unit_pow (n 26%Z) (n 2%Z) (n 2%Z) (n 1000%Z) f_half Hp) as (v & E & F & _); try assumption; try (rewrite V2; lra). exists v. auto.
  - destruct (C101_pedestal true unit_pow (n 26%Z) (n 6%Z) (n 1%Z) (n 2%Z) (n 2%Z) f_half (n 1000%Z) f1 26 Hp) as (v & E & F & _ & _ & _ & S); try assumption; try (rewrite ?V2, ?V26, ?V6, ?V1, ?Rabs_pos_eq; lra).
    exists v. split; [exact E|]. apply S. rewrite (proj2 f1_val). lra.
  - split; [|split].
    + intros p [<-|[<-|[]]]; cbn [fst snd]; (split; [assumption || reflexivity|split; [assumption|rewrite ?V5, ?V26, Rabs_pos_eq; lra]]).
    + unfold distinct_radii, real_rows. cbn [map fst snd]. change (B2R f0) with 0. rewrite V1. constructor; [intros [H|[]]; lra|constructor; [intros []|constructor]].
    + intros p q [<-|[<-|[]]] [<-|[<-|[]]]; cbn [fst snd]; change (B2R f0) with 0; rewrite ?V1; intro H; try (now contradiction H); [replace (1 - 0) with 1 by ring|replace (0 - 1) with (- (1)) by ring; unfold moderate; rewrite Rabs_Ropp]; rewrite V1 in M1; exact M1.
  - unfold inside_table, real_rows. cbn [map fst snd]. change (B2R f0) with 0. rewrite V1, Vh. unfold clamp01. rewrite Rmax_left, Rmin_left by lra. split; [exists (0, B2R (n 26%Z))|exists (1, B2R (n 5%Z))]; cbn; split; try tauto; lra.
Qed.
