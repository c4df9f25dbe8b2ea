(** C98: Bosch-Hale reactivities and source strengths in the arithmetic the computer uses (binary64). *)
From Coq Require Import ZArith Bool Reals Lra Lia List Permutation Floats.SpecFloat.
From Flocq Require Import Core.Core IEEE754.BinarySingleNaN.
From Verif Require Import Base Reactions SpecReactions Reactivity SpecReactivity ReactivityProofs Source SpecSource FloatComp FloatCompProofs FloatCompAcc FloatSource SpecFloatSource FloatSourceProofs FloatSpace FloatSpaceProofs FloatReactivity SpecFloatReactivity FloatReactivityProofs.
Local Open Scope R_scope.
Local Notation bp := (bpow radix2).

Lemma near_rel k n f X a b : (k <= 90)%nat -> (n <= nexp + k)%nat -> near n f X a b -> rel_error 1e-12 f X.
Proof.
  intros Hk Hn (F & C & B). split; [apply F|]. apply (close_weaken _ (nexp + 90)) in C; [|lia]. pose proof (close_abs _ _ _ (nexp_tiny 90 ltac:(lia)) C) as E. eapply Rle_trans; [exact E|].
  apply Rmult_le_compat_r; [apply C|]. rewrite plus_INR, nexp_INR. replace (INR 90) with 90 by (rewrite INR_IZR_INZ; reflexivity). rewrite uu_val. change (2 ^ 53)%Z with 9007199254740992%Z. lra.
Qed.
(** The reactivity of a cold cell. *)
Lemma cold64 spow vpow vexp d t : is_finite t = true -> B2R t <= 0 -> bh_point64 spow vpow vexp d t = f0.
Proof. intros F H. unfold bh_point64. rewrite Bltb_correct by (reflexivity || exact F). change (B2R f0) with 0. now rewrite Rlt_bool_false. Qed.
Lemma cold_SI r T : T <= 0 -> published_SI r T = 0.
Proof. intro H. unfold published_SI. destruct (Rle_dec T 0); [reflexivity|lra]. Qed.

Lemma min_warn (l : list f64) lo a : np_min64 l = Ok lo -> Forall (fun x => is_finite x = true) l -> is_finite a = true -> l <> [] -> (Bltb lo a = true <-> exists x, In x l /\ B2R x < B2R a).
Proof.
  intros E F Fa N. destruct (np_min_ok l N F) as (m & E' & I & M). rewrite E in E'. injection E' as <-. rewrite Forall_forall in F. rewrite Bltb_correct by (auto). destruct (Rlt_bool_spec (B2R lo) (B2R a)) as [H|H]; split; intro G; try discriminate; auto.
  - now exists lo.
  - destruct G as (x & Ix & Hx). specialize (M x Ix). lra.
Qed.
Lemma max_warn (l : list f64) hi a : np_max64 l = Ok hi -> Forall (fun x => is_finite x = true) l -> is_finite a = true -> l <> [] -> (Bltb a hi = true <-> exists x, In x l /\ B2R a < B2R x).
Proof.
  intros E F Fa N. destruct (np_max_ok l N F) as (m & E' & I & M). rewrite E in E'. injection E' as <-. rewrite Forall_forall in F. rewrite Bltb_correct by (auto). destruct (Rlt_bool_spec (B2R a) (B2R hi)) as [H|H]; split; intro G; try discriminate; auto.
  - now exists hi.
  - destruct G as (x & Ix & Hx). specialize (M x Ix). lra.
Qed.
(** The literal 0.2 is a little more than 1/5; comparisons with binary64 numbers come out as for 1/5. *)
Lemma lit_02 : is_finite (dec64 2 1) = true /\ B2R (dec64 2 1) = rnd (1 / 5) /\ 1 / 5 <= B2R (dec64 2 1).
Proof.
  destruct (dec64_value 2 1 ltac:(lia) ltac:(lia)) as [F V]. split; [exact F|]. replace (IZR 2 / IZR (10 ^ 1)) with (1 / 5) in V by (change (10 ^ 1)%Z with 10%Z; lra). split; [exact V|].
  rewrite <- SF2R_B2SF. replace (B2SF (dec64 2 1)) with (S754_finite false 7205759403792794 (-55)) by (vm_compute; reflexivity). cbn [SF2R]. unfold F2R. cbn [Fnum Fexp cond_Zopp]. change (bp (-55)) with (/ 36028797018963968). lra.
Qed.
Lemma below_02 (x : f64) : B2R x < B2R (dec64 2 1) <-> B2R x < 0.2.
Proof.
  destruct lit_02 as (_ & V & L). split; intro H; [|lra]. destruct (Rlt_le_dec (B2R x) 0.2) as [G|G]; [exact G|]. exfalso.
  assert (rnd (1 / 5) <= rnd (B2R x)) by (apply rnd_mono; lra). rewrite (rnd_id _ (B2R_fmt x)) in *. lra.
Qed.
Lemma coeffs_range r d : coeffs64 r = Some d -> t_min64 d = dec64 2 1 /\ t_max64 d = f64_of_Z 100.
Proof. destruct r; intro H; inversion H; subst; split; reflexivity. Qed.

Lemma map2_Forall2 {A B C} (P : A -> C -> Prop) (f : B -> A -> C) : forall (la : list A) (lb : list B), length lb = length la ->
  (forall a b, In a la -> P a (f b a)) -> Forall2 P la (map2 f lb la).
Proof.
  induction la as [|a la IH]; intros [|b lb] L H; cbn in L; try discriminate; cbn [map2]; constructor; [apply H; now left|]. apply IH; [lia|]. intros. apply H. now right.
Qed.

Section C98.
  Variable spow : f64 -> f64 -> f64.
  Variables (vpow : nat -> f64 -> f64 -> f64) (vexp : nat -> f64 -> f64).
  Hypotheses (Sp : good_pow spow) (Vp : forall i, good_pow (vpow i)) (Ve : forall i, good_exp (vexp i)).

  (** zero, or near *)
  Definition nz (n : nat) (f : f64) (X : R) (a b : Z) : Prop := fin_nn f /\ close n (B2R f) X /\ (X = 0 \/ bp a <= X <= bp b).
  Lemma nz_near n f X a b : near n f X a b -> nz n f X a b.
  Proof. intros (F & C & B). repeat split; try apply F; try apply C. now right. Qed.
  Lemma nz_mul n m x y X Y a b c d : nz n x X a b -> nz m y Y c d -> tiny n -> tiny m -> (-1000 <= a + c)%Z -> (b + d <= 1000)%Z -> nz (n + m + 1) (fmul x y) (X * Y) (a + c) (b + d).
  Proof.
    intros (Fx & Cx & Bx) (Fy & Cy & By) T1 T2 L1 L2. destruct (Req_dec (X * Y) 0) as [Z|Z].
    - assert (Zb : B2R x * B2R y = 0) by (destruct (Rmult_integral _ _ Z) as [-> | ->]; [rewrite (close_0 _ _ Cx)|rewrite (close_0 _ _ Cy)]; ring).
      destruct (fmul_close x y Fx Fy (or_introl Zb)) as [F C]. rewrite Zb in C. split; [exact F|]. split; [|now left]. rewrite Z. apply (close_weaken 1); [lia|exact C].
    - destruct Bx as [-> |Bx]; [rewrite Rmult_0_l in Z; now elim Z|]. destruct By as [-> |By]; [rewrite Rmult_0_r in Z; now elim Z|].
      apply nz_near. apply near_mul; try assumption; split; auto.
  Qed.
  Lemma nz_rel k n f X a b : (k <= 90)%nat -> (n <= nexp + k)%nat -> nz n f X a b -> rel_error 1e-12 f X.
  Proof.
    intros Hk Hn (F & C & B). destruct B as [-> |B]; [|eapply near_rel; [exact Hk|exact Hn|split; [exact F|split; [exact C|exact B]]]]. split; [apply F|]. rewrite (close_0 _ _ C), Rminus_0_r, Rabs_R0. lra.
  Qed.
  Lemma point_nz r i d t : fitted r -> coeffs64 r = Some d -> temperature_ok t -> nz (nexp + 79) (bh_point64 spow (vpow i) (vexp i) d t) (published_SI r (B2R t)) (-558) (-31).
  Proof.
    intros Hr E [F [H|H]].
    - rewrite (cold64 _ _ _ _ _ F H), (cold_SI r _ H). split; [split; [reflexivity|change (B2R f0) with 0; lra]|]. change (B2R f0) with 0. split; [|now left]. apply (close_weaken 0); [lia|]. apply close_refl. lra.
    - destruct (fitted_point64 spow (vpow i) (vexp i) r t Sp (Vp i) (Ve i) Hr F ltac:(lra)) as (d' & E' & N). rewrite E in E'. injection E' as <-. now apply nz_near.
  Qed.

  Lemma channel_ok r d temps : coeffs64 r = Some d -> temps <> [] -> Forall temperature_ok temps ->
    exists w, channel_bosch_hale64 spow vpow vexp temps d = Ok (map2 (fun i T => bh_point64 spow (vpow i) (vexp i) d T) (seq 0 (length temps)) temps, w) /\
      (w = [] <-> forall T, In T temps -> 0.2 <= B2R T <= 100) /\
      (w <> [] -> exists lo hi, w = [WOutOfRange64 lo hi] /\ In lo temps /\ In hi temps /\ forall T, In T temps -> B2R lo <= B2R T <= B2R hi).
  Proof.
    intros E N FT. assert (F : Forall (fun x => is_finite x = true) temps) by (eapply Forall_impl; [|exact FT]; intros x [G _]; exact G).
    destruct (coeffs_range r d E) as [E1 E2]. destruct (np_min_ok temps N F) as (lo & El & Il & Ml). destruct (np_max_ok temps N F) as (hi & Eh & Ih & Mh).
    unfold channel_bosch_hale64. rewrite El, Eh. cbn [bind]. eexists. split; [reflexivity|]. rewrite E1, E2.
    destruct (f64_of_Z_exact 100 ltac:(lia)) as [F100 V100].
    pose proof (min_warn temps lo (dec64 2 1) El F (proj1 lit_02) N) as W1. pose proof (max_warn temps hi (f64_of_Z 100) Eh F F100 N) as W2.
    destruct (Bltb lo (dec64 2 1)) eqn:B1; destruct (Bltb (f64_of_Z 100) hi) eqn:B2; cbn [orb].
    all: (split; [split; intro H; try discriminate; try reflexivity|intro H; try (now elim H); exists lo, hi; repeat split; auto]).
    all: try (exfalso; (destruct (proj1 W1 eq_refl) as (x & Ix & Hx); apply below_02 in Hx; specialize (H x Ix); lra)).
    all: try (exfalso; destruct (proj1 W2 eq_refl) as (x & Ix & Hx); rewrite V100 in Hx; specialize (H x Ix); lra).
    intros T IT. split.
    - destruct (Rlt_le_dec (B2R T) 0.2) as [G|G]; [|exact G]. exfalso. apply below_02 in G. assert (false = true) by (apply W1; eauto). discriminate.
    - destruct (Rlt_le_dec 100 (B2R T)) as [G|G]; [|exact G]. exfalso. assert (false = true) by (apply W2; exists T; split; [exact IT|now rewrite V100]). discriminate.
  Qed.

  Lemma reactivity_ok r temps : fitted r -> temps <> [] -> Forall temperature_ok temps ->
    exists d v w, coeffs64 r = Some d /\ channel_bosch_hale64 spow vpow vexp temps d = Ok (v, w) /\
      Forall2 (fun T x => rel_error 1e-12 x (published_SI r (B2R T))) temps v /\
      (w = [] <-> forall T, In T temps -> 0.2 <= B2R T <= 100) /\
      (w <> [] -> exists lo hi, w = [WOutOfRange64 lo hi] /\ In lo temps /\ In hi temps /\ forall T, In T temps -> B2R lo <= B2R T <= B2R hi).
  Proof.
    intros Hr N FT. destruct (coeffs64 r) as [d|] eqn:E; [|destruct Hr as [->|[->| ->]]; discriminate E]. destruct (channel_ok r d temps E N FT) as (w & Ev & W). eexists d, _, w. split; [reflexivity|]. split; [exact Ev|]. split; [|exact W].
    rewrite Forall_forall in FT. apply (map2_Forall2 (fun T x => rel_error 1e-12 x (published_SI r (B2R T))) (fun i T => bh_point64 spow (vpow i) (vexp i) d T)); [apply seq_length|]. intros T i IT.
    eapply (nz_rel 79); [lia| |apply point_nz; eauto]. lia.
  Qed.

  (** ** Strengths *)
  Lemma density_nz n : density_ok n -> nz 0 n (B2R n) 0 100.
  Proof.
    intros [F H]. rewrite two_bpow in H. assert (P : 0 <= B2R n) by lra. split; [now split|]. split; [now apply close_refl|]. destruct H; [now left|right]. change (bp 0) with 1. lra.
  Qed.
  Lemma half_nz n x X a b : nz n x X a b -> tiny n -> (-999 <= a)%Z -> (b <= 1000)%Z -> nz (n + 1) (fdiv x f2) (X / 2) (a - 1) (b - 1).
  Proof.
    intros (F & C & B) T L1 L2. destruct (f64_of_Z_exact 2 ltac:(lia)) as [F2 V2]. fold f2 in F2, V2. assert (G2 : fin_nn f2) by (split; [exact F2|lra]). destruct B as [-> |B].
    - assert (Zx : B2R x / B2R f2 = 0) by (rewrite (close_0 _ _ C); unfold Rdiv; ring). destruct (fdiv_close x f2 F G2 ltac:(lra) (or_introl Zx)) as [F' C']. rewrite Zx in C'. replace (0 / 2) with 0 by lra. split; [exact F'|]. split; [|now left]. apply (close_weaken 1); [lia|exact C'].
    - apply nz_near. pose proof (near_int 2 1 1 ltac:(lia) ltac:(change (bp 1) with 2; lra)) as N2. fold f2 in N2. pose proof (near_div n 0 x f2 X 2 a b 1 1) as H. rewrite Nat.add_0_r in H. apply H; [split; [exact F|split; [exact C|exact B]]|exact N2|exact T|unfold tiny; cbn; lra|lia|lia].
  Qed.
  Lemma pairs_nz r c : fitted r -> density_ok (nd64 c) -> density_ok (nt64 c) -> density_ok (nhe3_64 c) ->
    exists a b p, equation (label r) = Some ([a; b], p) /\ nz 3 (n1_n2_64 r c) (pair_density (fuel (B2R (nd64 c)) (B2R (nt64 c)) (B2R (nhe3_64 c))) a b) (-1) 200.
  Proof.
    intros Hr Hd Ht Hh. pose proof (density_nz _ Hd) as Nd. pose proof (density_nz _ Ht) as Nt.
    assert (T0 : tiny 0) by (unfold tiny; cbn; lra). assert (T1 : tiny 1) by (unfold tiny; cbn; lra).
    assert (W : forall n x X a b, (n <= 3)%nat -> (-1 <= a)%Z -> (b <= 200)%Z -> nz n x X a b -> nz 3 x X (-1) 200).
    { intros n x X a b Hn Ha Hb (A & B & C). split; [exact A|]. split; [eapply close_weaken; [exact Hn|exact B]|]. destruct C as [C|C]; [now left|right]. pose proof (bpow_le radix2 _ _ Ha). pose proof (bpow_le radix2 _ _ Hb). lra. }
    destruct Hr as [->|[->| ->]]; do 3 eexists; (split; [vm_compute; reflexivity|]); cbn [n1_n2_64]; unfold pair_density; cbn [fuel nuclide_eq_dec].
    - pose proof (nz_mul _ _ _ _ _ _ _ _ _ _ Nd Nt T0 T0 ltac:(lia) ltac:(lia)) as H. apply W in H; [|lia|lia|lia]. destruct (nuclide_eq_dec nD nT); [discriminate|]. replace (B2R (nd64 c) * B2R (nt64 c) / (1 + 0)) with (B2R (nd64 c) * B2R (nt64 c)) by field. exact H.
    - pose proof (nz_mul _ _ _ _ _ _ _ _ _ _ Nd Nd T0 T0 ltac:(lia) ltac:(lia)) as H. apply half_nz in H; [|exact T1|lia|lia]. apply W in H; [|lia|lia|lia]. destruct (nuclide_eq_dec nD nD); [|congruence]. replace (1 + 1) with 2 by lra. exact H.
    - pose proof (nz_mul _ _ _ _ _ _ _ _ _ _ Nd Nd T0 T0 ltac:(lia) ltac:(lia)) as H. apply half_nz in H; [|exact T1|lia|lia]. apply W in H; [|lia|lia|lia]. destruct (nuclide_eq_dec nD nD); [|congruence]. replace (1 + 1) with 2 by lra. exact H.
  Qed.
  Lemma strength_nz r i d c : fitted r -> coeffs64 r = Some d -> ordinary_cell c ->
    nz (nexp + 84) (fmul (fmul (n1_n2_64 r (cell_n c)) (bh_point64 spow (vpow i) (vexp i) d (cell_T c))) (cell_V c)) (exact_strength r c) (-619) 229.
  Proof.
    intros Hr E (HT & Hd & Ht & Hh & HV). destruct (pairs_nz r (cell_n c) Hr Hd Ht Hh) as (a & b & p & El & Np). unfold exact_strength. rewrite El. pose proof (point_nz r i d _ Hr E HT) as Ns.
    assert (NV : nz 0 (cell_V c) (B2R (cell_V c)) (-60) 60). { destruct HV as [F B]. rewrite !two_bpow in B. apply nz_near. now apply near_exact. }
    assert (T3 : tiny 3) by (unfold tiny; cbn; lra). assert (T0 : tiny 0) by (unfold tiny; cbn; lra).
    pose proof (nz_mul _ _ _ _ _ _ _ _ _ _ Np Ns T3 (nexp_tiny 79 ltac:(lia)) ltac:(lia) ltac:(lia)) as H1. replace (3 + (nexp + 79) + 1)%nat with (nexp + 83)%nat in H1 by lia.
    pose proof (nz_mul _ _ _ _ _ _ _ _ _ _ H1 NV (nexp_tiny 83 ltac:(lia)) T0 ltac:(lia) ltac:(lia)) as H2. replace (nexp + 83 + 0 + 1)%nat with (nexp + 84)%nat in H2 by lia. exact H2.
  Qed.

  Lemma strengths_list r d : fitted r -> coeffs64 r = Some d -> forall cs k, Forall ordinary_cell cs ->
    Forall2 (fun c s => nz (nexp + 84) s (exact_strength r c) (-619) 229) cs
      (map2 fmul (map2 (fun n v => fmul (n1_n2_64 r n) v) (map cell_n cs) (map2 (fun i T => bh_point64 spow (vpow i) (vexp i) d T) (seq k (length (map cell_T cs))) (map cell_T cs))) (map cell_V cs)).
  Proof.
    intros Hr E. induction cs as [|c cs IH]; intros k F; cbn [map map2 length seq]; constructor; inversion F; subst; [now apply strength_nz|now apply IH].
  Qed.
  Lemma sums_ok r (cs : list cell64) l : Forall2 (fun c s => nz (nexp + 84) s (exact_strength r c) (-619) 229) cs l -> Forall fin_nn l /\ close (nexp + 84) (exact_sum l) (total_strength r cs) /\ exact_sum l <= INR (length cs) * bp 230.
  Proof.
    induction 1 as [|c s cs l H _ (F & C & B)]; [split; [constructor|]; split; [apply (close_weaken 0); [lia|]; apply close_refl; cbn; lra|cbn; lra]|].
    destruct H as (Fs & Cs & Bs). split; [now constructor|]. split; [cbn [exact_sum total_strength fold_right]; now apply close_plus|].
    change (exact_sum (s :: l)) with (B2R s + exact_sum l). change (length (c :: cs)) with (S (length cs)). rewrite S_INR. assert (B2R s <= bp 230); [|lra].
    destruct Cs as (_ & _ & C1 & _). pose proof (tiny_2 _ (nexp_tiny 84 ltac:(lia))). pose proof (wp_1 (nexp + 84)). replace (bp 230) with (bp 229 * 2) by (rewrite <- bp_1, bp_mul; reflexivity). pose proof (bp_pos 229). assert (0 <= exact_strength r c <= bp 229) by (destruct Bs as [-> |Bs]; [lra|pose proof (bp_pos (-619)); lra]). nra.
  Qed.
  Lemma sum_rel n x y : INR n <= two 40 -> close (n + (nexp + 86)) x y -> Rabs (x - y) <= (1e-12 + INR n / 2 ^ 52) * y.
  Proof.
    intros Hn (X & Y & C1 & C2). rewrite two_bpow in Hn. rewrite wp_add in *. pose proof (wp_sharp _ (nexp_tiny 86 ltac:(lia))) as W1. rewrite plus_INR, nexp_INR in W1. replace (INR 86) with 86 in W1 by (rewrite INR_IZR_INZ; reflexivity).
    assert (U : uu <= 1.1103e-16) by (rewrite uu_val; change (2 ^ 53)%Z with 9007199254740992%Z; lra). pose proof uu_pos as U0.
    assert (U40 : INR n * uu <= / 8192). { apply Rle_trans with (bp 40 * uu); [apply Rmult_le_compat_r; lra|]. rewrite uu_bp, bp_mul. change (bp (40 + -53)) with (/ 8192). lra. }
    pose proof (wp_bound n ltac:(lra)) as W2. set (e2 := INR n * (2 * uu)) in *. replace (INR n / 2 ^ 52) with e2. 2:{ unfold e2. rewrite uu_val. rewrite (pow_IZR 2 52). change (Z.of_nat 52) with 52%Z. change (2 ^ 53)%Z with (2 * 2 ^ 52)%Z. rewrite mult_IZR. field. apply not_0_IZR. discriminate. }
    pose proof (pos_INR n). assert (E2 : 0 <= e2 <= / 4096) by (unfold e2; nra). pose proof (wp_1 n). pose proof (wp_1 (nexp + 86)).
    assert (W3 : wp (nexp + 86) <= 1 + 9.5e-13) by nra. assert (W : wp n * wp (nexp + 86) <= 1 + (1e-12 + e2)).
    { apply Rle_trans with ((1 + e2) * (1 + 9.5e-13)); [apply Rmult_le_compat; lra|]. nra. }
    set (w := wp n * wp (nexp + 86)) in *. assert (1 <= w) by (unfold w; nra). set (e := 1e-12 + e2) in *. assert (0 <= e) by (unfold e; lra). clearbody w e. apply Rabs_le. split; nra.
  Qed.

  Lemma strengths_ok r cs energy : fitted r -> cs <> [] -> Forall ordinary_cell cs -> INR (length cs) <= two 40 ->
    exists ch w, add_reaction64 spow vpow vexp (map cell_T cs) (map cell_n cs) (map cell_V cs) r energy (f64_of_Z (Z.of_nat (num_neutrons r))) = Some (Ok (ch, w)) /\
      Forall2 (fun c s => rel_error 1e-12 s (exact_strength r c)) cs (strength64 ch) /\
      rel_error (1e-12 + INR (length cs) / 2 ^ 52) (reactions64 ch) (total_strength r cs) /\
      rel_error (1e-12 + INR (length cs) / 2 ^ 52) (neutrons64 ch) (INR (neutrons r) * total_strength r cs).
  Proof.
    intros Hr N F L. destruct (coeffs64 r) as [d|] eqn:E; [|destruct Hr as [->|[->| ->]]; discriminate E].
    assert (FT : Forall temperature_ok (map cell_T cs)) by (rewrite Forall_map; eapply Forall_impl; [|exact F]; intros c H; apply H).
    destruct (channel_ok r d (map cell_T cs) E ltac:(destruct cs; [now elim N|discriminate]) FT) as (w & Ev & _).
    unfold add_reaction64, density_weighted_reactivity64. rewrite E, Ev. cbn [bind fst snd]. do 2 eexists. split; [reflexivity|]. cbn [new_channel64 strength64 reactions64 neutrons64].
    pose proof (strengths_list r d Hr E cs 0 F) as S. set (l := map2 fmul _ _) in *. clearbody l. clear Ev FT w.
    destruct (sums_ok r cs l S) as (Fl & Cl & Bl). assert (Ll : length l = length cs) by (clear - S; induction S; cbn; congruence).
    assert (Top : exact_sum l * wp (length l) <= bp 1023).
    { rewrite Ll. rewrite two_bpow in L. pose proof (wp_2 (length cs) ltac:(apply few; pose proof (bpow_le radix2 40 45 ltac:(lia)); lra)) as W. pose proof (wp_1 (length cs)). assert (0 <= exact_sum l) by apply Cl.
      apply Rle_trans with (bp 40 * bp 230 * bp 1); [|rewrite !bp_mul; apply bpow_le; lia]. apply Rmult_le_compat; try lra. eapply Rle_trans; [exact Bl|]. apply Rmult_le_compat_r; [left; apply bp_pos|exact L]. }
    destruct (sums_close l (pysum64 l) (pysum64_sums l) Fl Top) as (Fs & Cs & _). rewrite Ll in Cs. pose proof (close_trans _ _ _ _ _ Cs Cl) as Ct.
    split; [|split; [split; [apply Fs|]|]].
    - clear - S. induction S as [|c s cs l H _ IH]; constructor; [|exact IH]. eapply (nz_rel 84); [lia| |exact H]. lia.
    - apply sum_rel; [exact L|]. eapply close_weaken; [|exact Ct]. lia.
    - assert (Nn : neutrons r = num_neutrons r) by (destruct Hr as [->|[->| ->]]; vm_compute; reflexivity). rewrite Nn. set (k := num_neutrons r). assert (Hk : (k <= 1)%nat) by (unfold k; destruct Hr as [->|[->| ->]]; cbn; lia).
      destruct (f64_of_Z_exact (Z.of_nat k) ltac:(lia)) as [Fk Vk]. rewrite <- INR_IZR_INZ in Vk. set (fk := f64_of_Z (Z.of_nat k)) in *. clearbody fk k.
      assert (Gk : fin_nn fk) by (split; [exact Fk|rewrite Vk; apply pos_INR]).
      assert (Exact : B2R (fmul (pysum64 l) fk) = B2R (pysum64 l) * INR k /\ is_finite (fmul (pysum64 l) fk) = true).
      { set (x := pysum64 l) in *. clearbody x. destruct Fs as [Fx Px]. pose proof (Bmult_correct 53 1024 Hprec64 Hmax64 mode_NE x fk) as H. rewrite fexp64 in H. change (round_mode mode_NE) with ZnearestE in H. rewrite Vk in H.
        assert (R : rnd (B2R x * INR k) = B2R x * INR k) by (destruct k as [|[|k]]; [cbn [INR]; rewrite Rmult_0_r; apply rnd_0|cbn [INR]; rewrite Rmult_1_r; apply rnd_id, B2R_fmt|lia]).
        change (round radix2 (FLT_exp (-1074) 53) ZnearestE (B2R x * INR k)) with (rnd (B2R x * INR k)) in H. rewrite R in H. rewrite Rlt_bool_true in H.
        2:{ destruct k as [|[|k]]; [cbn [INR]; rewrite Rmult_0_r, Rabs_R0; apply bp_pos|cbn [INR]; rewrite Rmult_1_r; apply abs_B2R_lt_emax|lia]. }
        destruct H as (E1 & E2 & _). rewrite Fx, Fk in E2. split; [exact E1|exact E2]. }
      destruct Exact as [E1 E2]. split; [exact E2|]. rewrite E1, (Rmult_comm (INR k)). apply sum_rel; [exact L|]. apply close_mult_r; [apply pos_INR|]. eapply close_weaken; [|exact Ct]. lia.
  Qed.
End C98.

(** ** The theorems *)
Theorem C98_reactivity : forall spow vpow vexp r temps,
  good_pow spow -> (forall i, good_pow (vpow i)) -> (forall i, good_exp (vexp i)) ->
  fitted r -> temps <> [] -> Forall temperature_ok temps ->
  exists d v w, coeffs64 r = Some d /\ channel_bosch_hale64 spow vpow vexp temps d = Ok (v, w) /\
    Forall2 (fun T x => rel_error 1e-12 x (published_SI r (B2R T))) temps v /\
    (w = [] <-> forall T, In T temps -> 0.2 <= B2R T <= 100) /\
    (w <> [] -> exists lo hi, w = [WOutOfRange64 lo hi] /\ In lo temps /\ In hi temps /\ forall T, In T temps -> B2R lo <= B2R T <= B2R hi).
Proof. intros. now apply reactivity_ok. Qed.
Print Assumptions C98_reactivity.

Theorem C98_strengths : forall spow vpow vexp r cs energy,
  good_pow spow -> (forall i, good_pow (vpow i)) -> (forall i, good_exp (vexp i)) ->
  fitted r -> cs <> [] -> Forall ordinary_cell cs -> INR (length cs) <= two 40 ->
  exists ch w, add_reaction64 spow vpow vexp (map cell_T cs) (map cell_n cs) (map cell_V cs) r energy (f64_of_Z (Z.of_nat (num_neutrons r))) = Some (Ok (ch, w)) /\
    Forall2 (fun c s => rel_error 1e-12 s (exact_strength r c)) cs (strength64 ch) /\
    rel_error (1e-12 + INR (length cs) / 2 ^ 52) (reactions64 ch) (total_strength r cs) /\
    rel_error (1e-12 + INR (length cs) / 2 ^ 52) (neutrons64 ch) (INR (neutrons r) * total_strength r cs).
Proof. intros. now apply strengths_ok. Qed.
Print Assumptions C98_strengths.

(** ** The hypotheses are met: the correctly rounded power and exponential are good, and ordinary plasmas are made of ordinary cells *)
Definition nearest (x : R) : f64 := binary_normalize 53 1024 Hprec64 Hmax64 mode_NE (ZnearestE (scaled_mantissa radix2 (FLT_exp (-1074) 53) x)) (cexp radix2 (FLT_exp (-1074) 53) x) false.
Lemma nearest_four x : two (-1000) <= x <= two 1000 -> four_ulp (nearest x) x.
Proof.
  rewrite !two_bpow. intro H. pose proof (bp_pos (-1000)) as P. pose proof (bpow_le radix2 (-1022) (-1000) ltac:(lia)) as L.
  pose proof (binary_normalize_correct 53 1024 Hprec64 Hmax64 mode_NE (ZnearestE (scaled_mantissa radix2 (FLT_exp (-1074) 53) x)) (cexp radix2 (FLT_exp (-1074) 53) x) false) as N. cbv zeta in N. rewrite fexp64 in N. change (round_mode mode_NE) with ZnearestE in N.
  change (F2R {| Fnum := ZnearestE (scaled_mantissa radix2 (FLT_exp (-1074) 53) x); Fexp := cexp radix2 (FLT_exp (-1074) 53) x |}) with (rnd x) in N.
  assert (I : rnd (rnd x) = rnd x) by (apply rnd_id; apply generic_format_round; [apply FLT_exp_valid; reflexivity|apply valid_rnd_N]). rewrite I in N.
  assert (R : Rabs (rnd x - x) <= uu * x) by (rewrite <- (Rabs_pos_eq x) at 3 by lra; apply rnd_rel; rewrite Rabs_pos_eq; lra).
  pose proof uu_pos as U. assert (U8 : uu <= 8 / 2 ^ 53) by (rewrite uu_val; rewrite (pow_IZR 2 53); change (2 ^ Z.of_nat 53)%Z with 9007199254740992%Z; change (2 ^ 53)%Z with 9007199254740992%Z; lra).
  assert (U1 : uu <= 1) by (pose proof uu_1e15; lra).
  assert (B : Rabs (rnd x) < bp 1024). { apply Rabs_le_inv in R. pose proof (bpow_lt radix2 1001 1024 ltac:(lia)) as T. pose proof (bp_mul 1000 1) as M. change (bp 1) with 2 in M. change (1000 + 1)%Z with 1001%Z in M. apply Rabs_lt. assert (uu * x <= x) by nra. lra. }
  rewrite Rlt_bool_true in N by exact B. destruct N as (V & F & _). split; [exact F|]. unfold nearest. rewrite V. eapply Rle_trans; [exact R|]. apply Rmult_le_compat_r; lra.
Qed.
Definition pow_nearest (x y : f64) : f64 := nearest (Rpower (B2R x) (B2R y)).
Definition exp_nearest (x : f64) : f64 := nearest (exp (B2R x)).
Example C98_libm : good_pow pow_nearest /\ good_exp exp_nearest.
Proof. split; [intros x y _ _ _ H|intros x _ H]; now apply nearest_four. Qed.
(** A cell at 10 keV and one that is cold; 2^66 particles of each kind per cubic metre. *)
Definition ex_dens : dens64 := {| nd64 := binary_normalize 53 1024 Hprec64 Hmax64 mode_NE 1 66 false; nt64 := binary_normalize 53 1024 Hprec64 Hmax64 mode_NE 1 66 false; nhe3_64 := f0 |}.
Definition ex_cells : list cell64 := [{| cell_T := f64_of_Z 10; cell_n := ex_dens; cell_V := dec64 5 1 |}; {| cell_T := f0; cell_n := ex_dens; cell_V := f1 |}].
Example C98_hypotheses : ex_cells <> [] /\ Forall ordinary_cell ex_cells /\ INR (length ex_cells) <= two 40 /\ Forall temperature_ok (map cell_T ex_cells).
Proof.
  split; [discriminate|]. destruct (normalize_exact 1 66 false ltac:(lia) ltac:(lia)) as [Fd Vd]. rewrite Rmult_1_l in Vd. pose proof (bpow_le radix2 0 66 ltac:(lia)) as L1. pose proof (bpow_le radix2 66 100 ltac:(lia)) as L2. change (bp 0) with 1 in L1.
  destruct (f64_of_Z_exact 10 ltac:(lia)) as [F10 V10].
  assert (D : density_ok (binary_normalize 53 1024 Hprec64 Hmax64 mode_NE 1 66 false)) by (split; [exact Fd|right; rewrite Vd, two_bpow; lra]).
  assert (Z : density_ok f0) by (split; [reflexivity|now left]).
  assert (T1 : temperature_ok (f64_of_Z 10)) by (split; [exact F10|right; rewrite V10; lra]).
  assert (T2 : temperature_ok f0) by (split; [reflexivity|left; change (B2R f0) with 0; lra]).
  assert (V1 : B2R f1 = 1) by (destruct (f64_of_Z_exact 1 ltac:(lia)) as [_ V]; exact V).
  assert (VH : B2R (dec64 5 1) = / 2) by (rewrite <- SF2R_B2SF; replace (B2SF (dec64 5 1)) with (S754_finite false 4503599627370496 (-53)) by (vm_compute; reflexivity); cbn [SF2R]; unfold F2R; cbn [Fnum Fexp cond_Zopp]; change (bp (-53)) with (/ 9007199254740992); lra).
  pose proof (bpow_le radix2 (-60) (-1) ltac:(lia)) as B1. pose proof (bpow_le radix2 0 60 ltac:(lia)) as B2. change (bp (-1)) with (/ 2) in B1. change (bp 0) with 1 in B2.
  split; [|split].
  - assert (W1 : between (-60) 60 f1) by (split; [reflexivity|rewrite !two_bpow, V1; lra]).
    assert (WH : between (-60) 60 (dec64 5 1)) by (split; [vm_compute; reflexivity|rewrite !two_bpow, VH; lra]).
    constructor; [exact (conj T1 (conj D (conj D (conj Z WH))))|]. constructor; [exact (conj T2 (conj D (conj D (conj Z W1))))|]. constructor.
  - rewrite two_bpow. pose proof (bpow_le radix2 1 40 ltac:(lia)) as B. change (bp 1) with 2 in B. cbn. lra.
  - constructor; [exact T1|]. constructor; [exact T2|]. constructor.
Qed.
