(** C99: a source of given fusion power in the arithmetic the computer uses (binary64): from temperatures, densities and volumes to the final strengths. *)
From Coq Require Import ZArith Bool Reals Lra Lia List Permutation Floats.SpecFloat.
From Flocq Require Import Core.Core IEEE754.BinarySingleNaN.
From Verif Require Import Base Reactions SpecReactions Reactivity SpecReactivity ReactivityProofs Source SpecSource FloatComp FloatCompProofs FloatCompAcc FloatSource SpecFloatSource FloatSourceProofs P_FloatSource FloatSpace FloatSpaceProofs FloatReactivity SpecFloatReactivity FloatReactivityProofs P_FloatReactivity FloatMain SpecFloatMain.
Local Open Scope R_scope.
Local Notation bp := (bpow radix2).

(** ** Sizes *)
Lemma low_SI r (t : f64) : fitted r -> is_finite t = true -> 0.2 <= B2R t <= 100 -> bp (-170) <= published_SI r (B2R t).
Proof.
  intros Hr Ft Ht. destruct (inst r t Hr Ft ltac:(lra)) as (d64 & _ & _ & HF & _ & Hbg & (_ & _ & Hm) & (_ & _ & Hc)). destruct (fitted_coeffs r Hr) as (_ & EF & _).
  unfold published_SI. destruct (Rle_dec (B2R t) 0) as [N|_]; [lra|]. rewrite <- EF. set (d := coeffs r) in *. set (T := B2R t) in *. set (F := bhN d T / bhD d T) in *. set (th := T / (1 - F)).
  assert (Bth : 0.2 / 1.5 <= th <= 200) by (assert (E : th * (1 - F) = T) by (unfold th; field; lra); clearbody th; split; nra).
  set (q0 := bg d * bg d / (4 * th)). assert (Bq : 1.2 <= q0 <= 14 * 14 * 14).
  { unfold q0. split; apply (Rmult_le_reg_r (4 * th)); try lra; unfold Rdiv; rewrite Rmult_assoc, Rinv_l by lra; nra. }
  set (x0 := Rpower q0 (1 / 3)). assert (Bx0 : 1 <= x0 <= 14).
  { split.
    - rewrite <- (Rpower_O q0) by lra. apply Rle_Rpower; lra.
    - replace 14 with (Rpower (Rpower 14 3) (1 / 3)) by (rewrite Rpower_mult; replace (3 * (1 / 3)) with 1 by lra; apply Rpower_1; lra). apply Rpower_mono; [|lra]. rewrite Rpower_3 by lra. lra. }
  replace (fit_of d T / 1000000) with (1 / 1000000 * c0 d * th * sqrt (x0 / (mrc2 d * (T * T * T))) * exp (-3 * x0)).
  2:{ unfold fit_of, bh_fit. change (bh_theta (c1 d) (c2 d) (c3 d) (c4 d) (c5 d) (c6 d) T) with th. replace (bg d ^ 2) with (bg d * bg d) by ring. fold q0. fold x0. replace (T ^ 3) with (T * T * T) by ring. field. }
  assert (R : bp (-21) <= sqrt (x0 / (mrc2 d * (T * T * T)))).
  { assert (M0 : 0 < mrc2 d) by (pose proof (bp_pos 19); lra). assert (T3 : 0 < T * T * T <= 1000000) by (split; [repeat apply Rmult_lt_0_compat; lra|nra]).
    replace (bp (-21)) with (sqrt (bp (-42))) by (replace (bp (-42)) with (bp (-21) * bp (-21)) by (rewrite bp_mul; reflexivity); apply sqrt_square; left; apply bp_pos).
    apply sqrt_le_1_alt. apply (Rmult_le_reg_r (mrc2 d * (T * T * T))); [apply Rmult_lt_0_compat; lra|]. replace (x0 / (mrc2 d * (T * T * T)) * (mrc2 d * (T * T * T))) with x0 by (field; split; lra).
    apply Rle_trans with (bp (-42) * (bp 21 * bp 20)); [|rewrite !bp_mul; change (bp (-42 + (21 + 20))) with (/ 2); lra]. apply Rmult_le_compat_l; [left; apply bp_pos|]. apply Rmult_le_compat; try lra. change (bp 20) with 1048576. lra. }
  assert (E : bp (-84) <= exp (-3 * x0)).
  { pose proof (exp_low 42) as L. change (- (2 * Z.of_nat 42))%Z with (-84)%Z in L. eapply Rle_trans; [exact L|]. replace (INR 42) with 42 by (rewrite INR_IZR_INZ; reflexivity).
    destruct (Rle_lt_or_eq_dec x0 14 (proj2 Bx0)) as [H|H]; [left; apply exp_increasing; lra|right; f_equal; lra]. }
  replace (bp (-170)) with (bp (-20) * bp (-38) * bp (-3) * bp (-21) * bp (-88)) by (rewrite !bp_mul; reflexivity). pose proof (bpow_le radix2 (-88) (-84) ltac:(lia)).
  repeat (apply Rmult_le_compat; [repeat apply Rmult_le_pos; left; apply bp_pos|left; apply bp_pos| |]); try lra; try apply Hc; try exact R.
  - change (bp (-20)) with (/ 1048576). lra.
  - change (bp (-3)) with (/ 8). lra.
Qed.

Lemma pair_size X Y : (X = 0 \/ 1 <= X <= bp 80) -> (Y = 0 \/ 1 <= Y <= bp 80) ->
  (X * Y / (1 + 0) = 0 \/ bp (-1) <= X * Y / (1 + 0) <= bp 160) /\ (X * Y / (1 + 1) = 0 \/ bp (-1) <= X * Y / (1 + 1) <= bp 160).
Proof.
  intros [->|HX] [->|HY]; try (split; left; lra). assert (P : 1 <= X * Y <= bp 160) by (replace (bp 160) with (bp 80 * bp 80) by (rewrite bp_mul; reflexivity); split; [nra|apply Rmult_le_compat; lra]).
  change (bp (-1)) with (/ 2). split; right; lra.
Qed.
Lemma plasma_ordinary c : plasma_cell c -> ordinary_cell c.
Proof.
  intros ([F T] & D1 & D2 & D3 & [FV V]). rewrite !two_bpow in *.
  assert (D : forall n, plasma_density n -> density_ok n) by (intros n [G [H|H]]; (split; [exact G|]); [now left|right]; rewrite !two_bpow in *; pose proof (bpow_le radix2 80 100 ltac:(lia)); lra).
  split; [split; [exact F|lra]|]. split; [now apply D|]. split; [now apply D|]. split; [now apply D|]. split; [exact FV|]. rewrite !two_bpow. pose proof (bpow_le radix2 20 60 ltac:(lia)). lra.
Qed.
Lemma strength_size r c : fitted r -> plasma_cell c -> exact_strength r c = 0 \/ bp (-240) <= exact_strength r c <= bp 149.
Proof.
  intros Hr ((FT & T) & (_ & Dd) & (_ & Dt) & _ & (FV & V)). rewrite !two_bpow in *.
  assert (S : published_SI r (B2R (cell_T c)) = 0 \/ bp (-170) <= published_SI r (B2R (cell_T c)) <= bp (-31)).
  { destruct T as [T|T]; [left; now apply cold_SI|right]. split; [now apply low_SI|]. destruct (fitted_point64 pow_nearest pow_nearest exp_nearest r (cell_T c) (proj1 C98_libm) (proj1 C98_libm) (proj2 C98_libm) Hr FT ltac:(lra)) as (d & _ & _ & _ & B). apply B. }
  set (sv := published_SI r (B2R (cell_T c))) in *. set (v := B2R (cell_V c)) in *.
  assert (G : forall p, (p = 0 \/ bp (-1) <= p <= bp 160) -> p * sv * v = 0 \/ bp (-240) <= p * sv * v <= bp 149).
  { intros p [->|Hp]; [left; ring|]. destruct S as [->|S]; [left; ring|right]. split.
    - apply Rle_trans with (bp (-1) * bp (-170) * bp (-60)); [rewrite !bp_mul; apply bpow_le; lia|]. repeat (apply Rmult_le_compat; [repeat apply Rmult_le_pos; left; apply bp_pos|left; apply bp_pos| |]); lra || (left; apply bp_pos).
    - replace (bp 149) with (bp 160 * bp (-31) * bp 20) by (rewrite !bp_mul; reflexivity). pose proof (bp_pos (-1)). pose proof (bp_pos (-170)). pose proof (bp_pos (-60)). apply Rmult_le_compat; try lra; [apply Rmult_le_pos; lra|apply Rmult_le_compat; lra]. }
  destruct (pair_size _ _ Dd Dt) as [P1 _]. destruct (pair_size _ _ Dd Dd) as [_ P2].
  destruct Hr as [->|[->| ->]]; unfold exact_strength; match goal with |- context [equation ?l] => let e := eval vm_compute in (equation l) in change (equation l) with e end; unfold pair_density; cbn [fuel]; fold sv; fold v; apply G;
   [destruct (nuclide_eq_dec nD nT); [discriminate|exact P1]|destruct (nuclide_eq_dec nD nD); [exact P2|congruence]|destruct (nuclide_eq_dec nD nD); [exact P2|congruence]].
Qed.
Lemma exact_strength_nonneg r c : fitted r -> plasma_cell c -> 0 <= exact_strength r c.
Proof. intros Hr H. destruct (strength_size r c Hr H) as [->|B]; [lra|]. pose proof (bp_pos (-240)). lra. Qed.
Lemma total_nonneg r cs : fitted r -> Forall plasma_cell cs -> 0 <= total_strength r cs.
Proof. intros Hr H. induction H as [|c cs Hc _ IH]; cbn [total_strength fold_right]; [lra|]. fold (total_strength r cs). pose proof (exact_strength_nonneg r c Hr Hc). lra. Qed.
Lemma total_ge r cs c : fitted r -> Forall plasma_cell cs -> In c cs -> exact_strength r c <= total_strength r cs.
Proof.
  intros Hr H. induction H as [|x cs Hx Hc IH]; intros I; [destruct I|]. cbn [total_strength fold_right]. fold (total_strength r cs). pose proof (total_nonneg r cs Hr Hc). pose proof (exact_strength_nonneg r x Hr Hx).
  destruct I as [->|I]; [lra|]. specialize (IH I). lra.
Qed.

(** Twice the errors of the reactivity, and m more. *)
Lemma rel_of m n x y : INR m <= bp 41 -> (n <= m + (nexp + nexp + 180))%nat -> close n x y -> Rabs (x - y) <= (2e-12 + INR m / 2 ^ 52) * y.
Proof.
  intros Hm Hn C. apply (close_weaken _ (m + (nexp + nexp + 180))) in C; [|exact Hn]. destruct C as (X & Y & C1 & C2). rewrite wp_add in *.
  assert (Tn : tiny (nexp + nexp + 180)) by (unfold tiny; rewrite !plus_INR, nexp_INR; replace (INR 180) with 180 by (rewrite INR_IZR_INZ; reflexivity); lra).
  pose proof (wp_sharp _ Tn) as W1. rewrite !plus_INR, nexp_INR in W1. replace (INR 180) with 180 in W1 by (rewrite INR_IZR_INZ; reflexivity).
  assert (U : uu <= 1.1103e-16) by (rewrite uu_val; change (2 ^ 53)%Z with 9007199254740992%Z; lra). pose proof uu_pos as U0.
  assert (U40 : INR m * uu <= / 4096). { apply Rle_trans with (bp 41 * uu); [apply Rmult_le_compat_r; lra|]. rewrite uu_bp, bp_mul. change (bp (41 + -53)) with (/ 4096). lra. }
  pose proof (wp_bound m ltac:(lra)) as W2. set (e2 := INR m * (2 * uu)) in *. replace (INR m / 2 ^ 52) with e2. 2:{ unfold e2. rewrite uu_val. rewrite (pow_IZR 2 52). change (Z.of_nat 52) with 52%Z. change (2 ^ 53)%Z with (2 * 2 ^ 52)%Z. rewrite mult_IZR. field. apply not_0_IZR. discriminate. }
  pose proof (pos_INR m). assert (E2 : 0 <= e2 <= / 2048) by (unfold e2; nra). pose proof (wp_1 m). pose proof (wp_1 (nexp + nexp + 180)).
  assert (W3 : wp (nexp + nexp + 180) <= 1 + 1.9e-12) by nra. assert (W : wp m * wp (nexp + nexp + 180) <= 1 + (2e-12 + e2)).
  { apply Rle_trans with ((1 + e2) * (1 + 1.9e-12)); [apply Rmult_le_compat; lra|]. nra. }
  set (w := wp m * wp (nexp + nexp + 180)) in *. assert (1 <= w) by (unfold w; nra). set (e := 2e-12 + e2) in *. assert (0 <= e) by (unfold e; lra). clearbody w e. apply Rabs_le. split; nra.
Qed.

Section C99.
  Variable spow : f64 -> f64 -> f64.
  Variables (vpow : nat -> f64 -> f64 -> f64) (vexp : nat -> f64 -> f64).
  Hypotheses (Sp : good_pow spow) (Vp : forall i, good_pow (vpow i)) (Ve : forall i, good_exp (vexp i)).
  Variable npsum : list f64 -> f64.
  Hypothesis Hnp : forall l, sums l (npsum l).
  Variable energy : reaction -> f64.
  Variable cs : list cell64.
  Hypotheses (Ncs : cs <> []) (Hcs : Forall plasma_cell cs).

  Definition mult r : f64 := f64_of_Z (Z.of_nat (num_neutrons r)).
  Definition in_range_all : Prop := forall c, In c cs -> 0.2 <= B2R (cell_T c) <= 100.
  (** The data of a channel. *)
  Definition is_data (r : reaction) (d : data) : Prop :=
    fst (fst d) = energy r /\ snd (fst d) = mult r /\ Forall2 (fun c s => nz (nexp + 84) s (exact_strength r c) (-619) 229) cs (snd d).

  Lemma add_ok r : fitted r -> exists l w, add_reaction64 spow vpow vexp (map cell_T cs) (map cell_n cs) (map cell_V cs) r (energy r) (mult r) = Some (Ok (new_channel64 (energy r) (mult r) l, w)) /\
    Forall2 (fun c s => nz (nexp + 84) s (exact_strength r c) (-619) 229) cs l /\ (w = [] <-> in_range_all).
  Proof.
    intro Hr. destruct (coeffs64 r) as [d|] eqn:E; [|destruct Hr as [->|[->| ->]]; discriminate E].
    assert (FO : Forall ordinary_cell cs) by (eapply Forall_impl; [|exact Hcs]; apply plasma_ordinary).
    assert (FT : Forall temperature_ok (map cell_T cs)) by (rewrite Forall_map; eapply Forall_impl; [|exact FO]; intros c H; apply H).
    destruct (channel_ok spow vpow vexp r d (map cell_T cs) E ltac:(destruct cs; [now elim Ncs|discriminate]) FT) as (w & Ev & Hw & _).
    unfold add_reaction64, density_weighted_reactivity64. rewrite E, Ev. cbn [bind fst snd]. do 2 eexists. split; [reflexivity|]. split.
    - apply (strengths_list spow vpow vexp Sp Vp Ve r d Hr E cs 0 FO).
    - rewrite Hw. unfold in_range_all. split; [intros H c Hc; apply H; now apply in_map|]. intros H T HT. apply in_map_iff in HT. destruct HT as (c & <- & Hc). auto.
  Qed.
  Lemma loop_ok : forall rs, Forall fitted rs -> exists ds w, add_reactions64 spow vpow vexp energy (map cell_T cs) (map cell_n cs) (map cell_V cs) rs = Some (Ok (map new64 ds, w)) /\
    Forall2 is_data rs ds /\ (rs <> [] -> (w = [] <-> in_range_all)).
  Proof.
    induction rs as [|r rs IH]; intro F; [exists [], []; split; [reflexivity|split; [constructor|now intros []]]|]. inversion F; subst. destruct (add_ok r H1) as (l & w & E & L & W). destruct (IH H2) as (ds & w' & E' & L' & W').
    exists ((energy r, mult r, l) :: ds), (w ++ w'). cbn [add_reactions64]. fold (mult r). rewrite E, E'. cbn [bind fst snd map]. split; [reflexivity|]. split; [constructor; [|exact L']; split; [reflexivity|]; split; [reflexivity|exact L]|].
    intros _. destruct rs as [|r' rs]; [cbn in E'; injection E' as _ <-; now rewrite app_nil_r|]. specialize (W' ltac:(discriminate)). split; [intro Z; apply app_eq_nil in Z; tauto|]. intro Z. rewrite (proj2 W Z), (proj2 W' Z). reflexivity.
  Qed.

  Variable rs : list reaction.
  Hypotheses (Nrs : rs <> []) (Hrs : Forall fitted rs).
  Hypothesis He : forall r, In r rs -> between (-50) (-30) (energy r).
  Hypothesis Hsize : INR (work rs cs) <= two 39.
  Hypothesis Hpos : exists r c, In r rs /\ In c cs /\ 0 < exact_strength r c.

  Lemma Forall2_len {A B} (P : A -> B -> Prop) l l' : Forall2 P l l' -> length l = length l'.
  Proof. induction 1; cbn; congruence. Qed.
  Lemma Forall2_in {A B} (P : A -> B -> Prop) l l' y : Forall2 P l l' -> In y l' -> exists x, In x l /\ P x y.
  Proof. induction 1 as [|a b l l' H _ IH]; [intros []|]. intros [->|I]; [exists a; split; [now left|exact H]|]. destruct (IH I) as (x & Ix & Hx). exists x. split; [now right|exact Hx]. Qed.
  Lemma Forall2_in_l {A B} (P : A -> B -> Prop) l l' x : Forall2 P l l' -> In x l -> exists y, In y l' /\ P x y.
  Proof. induction 1 as [|a b l l' H _ IH]; [intros []|]. intros [->|I]; [exists b; split; [now left|exact H]|]. destruct (IH I) as (y & Iy & Hy). exists y. split; [now right|exact Hy]. Qed.

  Lemma mult_value r : fitted r -> is_finite (mult r) = true /\ B2R (mult r) = INR (neutrons r) /\ (neutrons r <= 1)%nat.
  Proof.
    intro Hr. assert (Nn : neutrons r = num_neutrons r) by (destruct Hr as [->|[->| ->]]; vm_compute; reflexivity). rewrite Nn. assert (Hk : (num_neutrons r <= 1)%nat) by (destruct Hr as [->|[->| ->]]; cbn; lia).
    destruct (f64_of_Z_exact (Z.of_nat (num_neutrons r)) ltac:(lia)) as [Fk Vk]. rewrite <- INR_IZR_INZ in Vk. now repeat split.
  Qed.
  Lemma data_ordinary r d : In r rs -> is_data r d -> ordinary d.
  Proof.
    intros I (E1 & E2 & S). assert (Hr : fitted r) by (rewrite Forall_forall in Hrs; auto). unfold ordinary. rewrite E1, E2. split; [now apply He|]. destruct (mult_value r Hr) as (Fm & Vm & Lm). split.
    - split; [exact Fm|]. rewrite Vm, two_bpow. destruct (neutrons r) as [|[|k]]; [now left|right|lia]. cbn [INR]. split; [lra|]. change 1 with (bp 0). apply bpow_le. lia.
    - rewrite Forall_forall. intros s Is. destruct (Forall2_in _ _ _ s S Is) as (c & Ic & (Fs & Cs & _)). split; [apply Fs|]. rewrite Forall_forall in Hcs. destruct (strength_size r c Hr (Hcs c Ic)) as [Z|B]; [left; rewrite Z in Cs; now apply close_0 in Cs|right].
      rewrite !two_bpow. destruct Cs as (_ & _ & C1 & C2). pose proof (tiny_2 _ (nexp_tiny 84 ltac:(lia))) as W2. pose proof (wp_1 (nexp + 84)) as W1. pose proof (bp_pos (-240)). replace (bp 150) with (bp 149 * 2) by (rewrite <- bp_1, bp_mul; reflexivity).
      pose proof (bpow_le radix2 (-300) (-241) ltac:(lia)) as L. replace (bp (-241)) with (bp (-240) / 2) in L by (rewrite <- bp_1, bp_div; reflexivity). pose proof (proj2 Fs). set (w := wp (nexp + 84)) in *. clearbody w. split; nra.
  Qed.
  Lemma data_sum r d : is_data r d -> close (nexp + 84) (exact_sum (snd d)) (total_strength r cs).
  Proof. intros (_ & _ & S). now apply (sums_ok r cs (snd d)). Qed.
  Lemma data_size ds : Forall2 is_data rs ds -> size ds = work rs cs /\ (cells_of (map new64 ds) + length (map new64 ds))%nat = work rs cs.
  Proof.
    intro H. assert (G : forall rs ds, Forall2 is_data rs ds -> (cells_of (map new64 ds) + length ds)%nat = work rs cs).
    { clear. intros rs ds H. unfold work. induction H as [|r d rs ds (_ & _ & S) _ IH]; [reflexivity|]. cbn [map cells_of fold_right length]. fold (cells_of (map new64 ds)). rewrite Nat.mul_succ_l, <- IH. unfold new64 at 1. cbn [new_channel64 strength64]. rewrite <- (Forall2_len _ _ _ S). lia. }
    rewrite map_length. split; [unfold size|]; now apply G.
  Qed.
  Lemma power_close ds : Forall2 is_data rs ds -> close (nexp + 84) (total_power (map new64 ds)) (exact_power energy rs cs).
  Proof.
    clear Hpos Hsize Nrs. revert ds. induction rs as [|r l IH]; intros ds H; inversion H; subst; cbn [map total_power fold_right exact_power].
    - apply (close_weaken 0); [lia|]. apply close_refl. lra.
    - fold (total_power (map new64 l')) (exact_power energy l cs). inversion Hrs; subst. apply close_plus; [|apply IH; auto; intros; apply He; now right]. pose proof (data_sum _ _ H2) as C. destruct H2 as (E1 & _). unfold power, new64. cbn [new_channel64 strength64 energy64]. rewrite E1.
      apply close_mult_r; [|exact C]. destruct (He r (or_introl eq_refl)) as [_ [L _]]. rewrite two_bpow in L. pose proof (bp_pos (-50)). lra.
  Qed.

  Lemma source_ok P : between (-100) 100 P ->
    exists chs w, make_source64 spow vpow vexp npsum energy (map cell_T cs) (map cell_n cs) (map cell_V cs) rs (Some P) = Some (Ok (chs, w)) /\
      0 < exact_power energy rs cs /\
      Forall2 (fun r ch =>
        Forall2 (fun c s => rel_error (accuracy rs cs) s (exact_strength r c * (B2R P / exact_power energy rs cs))) cs (strength64 ch) /\
        rel_error (accuracy rs cs) (reactions64 ch) (total_strength r cs * (B2R P / exact_power energy rs cs)) /\
        rel_error (accuracy rs cs) (neutrons64 ch) (INR (neutrons r) * total_strength r cs * (B2R P / exact_power energy rs cs))) rs chs /\
      rel_error (accuracy rs cs) (source_rate64 chs) (exact_neutrons rs cs * (B2R P / exact_power energy rs cs)) /\
      rel_error (INR (2 * work rs cs + 4) / 2 ^ 52) (total_power64 npsum chs) (B2R P) /\
      (w = [] <-> forall c, In c cs -> 0.2 <= B2R (cell_T c) <= 100).
  Proof.
    intro HP. destruct (loop_ok rs Hrs) as (ds & w & El & Hd & Hw). unfold make_source64. rewrite El. cbn [bind fst snd].
    destruct (data_size ds Hd) as [Sz Sz2]. set (n := work rs cs) in *. pose proof Hsize as Hn. rewrite two_bpow in Hn.
    assert (HO : Forall ordinary ds). { apply Forall_forall. intros d Id. destruct (Forall2_in _ _ _ d Hd Id) as (r & Ir & H). now apply (data_ordinary r d). }
    assert (HPs : exists d s, In d ds /\ In s (snd d) /\ 0 < B2R s).
    { destruct Hpos as (r & c & Ir & Ic & Pc). destruct (Forall2_in_l _ _ _ r Hd Ir) as (d & Id & (_ & _ & S)). destruct (Forall2_in_l _ _ _ c S Ic) as (s & Is & (_ & C & _)). exists d, s. repeat split; auto. eapply close_pos; [exact C|exact Pc]. }
    set (cs0 := map new64 ds) in *. assert (Fr : Forall fresh cs0) by (apply ordinary_all; [exact HO|fold cs0; rewrite Sz2; exact Hn]).
    pose proof (ordinary_power ds Fr HPs) as T0. fold cs0 in T0. assert (Ne : cs0 <> []) by (unfold cs0; destruct ds; [destruct HPs as (? & ? & [] & _)|discriminate]).
    destruct (step npsum Hnp cs0 0 1 cs0 P Fr Ne (start cs0 Fr T0)) as (k & chs & En & (HK & Fo & Rg & Tp) & Cp); [change (INR 1) with (bp 0); apply bpow_le; lia|rewrite Sz2; exact Hn|exact HP|]. rewrite Rmult_1_l in *. rewrite Sz2 in Cp. rewrite En. cbn [bind].
    exists chs, w. split; [reflexivity|]. set (K := B2R k) in *. clearbody K. clear k En.
    pose proof (power_close ds Hd) as CE. fold cs0 in CE. set (t0 := total_power cs0) in *. set (E := exact_power energy rs cs) in *.
    assert (PE : 0 < E) by (eapply close_pos; [apply close_sym; exact CE|exact T0]). split; [exact PE|].
    assert (PP : bp (-100) <= B2R P <= bp 100) by (destruct HP as [_ H]; rewrite !two_bpow in H; exact H). pose proof (bp_pos (-100)) as P100.
    (* the factor *)
    assert (CK : close (n + 4 + (nexp + 84)) K (B2R P / E)).
    { pose proof (follows_total 1 K cs0 chs ltac:(lra) Fr Fo) as C1. fold t0 in C1. pose proof (close_trans _ _ _ _ _ (close_sym _ _ _ C1) Cp) as C2. replace K with (t0 * K / t0) by (field; lra). replace (n + 4)%nat with (1 + (n + 3))%nat by lia. apply close_div; assumption. }
    set (q := B2R P / E) in *. assert (Pq : 0 < q) by (unfold q; apply Rdiv_lt_0_compat; lra).
    assert (Lcs : (length cs + length rs <= n)%nat) by (unfold n, work; destruct rs as [|r0 rs0]; [now elim Nrs|]; cbn [length]; nia).
    assert (N2 : INR (2 * n) <= bp 41). { rewrite mult_INR. replace (INR 2) with 2 by (cbn; lra). replace (bp 41) with (4 * bp 39) by (change 4 with (bp 2); rewrite bp_mul; reflexivity). pose proof (bp_pos 39). lra. }
    (* channel by channel *)
    assert (Ch : Forall2 (fun r ch =>
        Forall2 (fun c s => fin_nn s /\ close (n + (nexp + nexp + 180)) (B2R s) (exact_strength r c * q)) cs (strength64 ch) /\
        (fin_nn (reactions64 ch) /\ close (n + length cs + (nexp + nexp + 173)) (B2R (reactions64 ch)) (total_strength r cs * q)) /\
        (fin_nn (neutrons64 ch) /\ close (n + length cs + (nexp + nexp + 174)) (B2R (neutrons64 ch)) (INR (neutrons r) * total_strength r cs * q))) rs chs).
    { assert (G : forall rs' ds' chs', (forall r, In r rs' -> fitted r) -> Forall2 is_data rs' ds' -> Forall fresh (map new64 ds') -> Forall2 (follows 1 K) (map new64 ds') chs' ->
        Forall2 (fun r ch =>
        Forall2 (fun c s => fin_nn s /\ close (n + (nexp + nexp + 180)) (B2R s) (exact_strength r c * q)) cs (strength64 ch) /\
        (fin_nn (reactions64 ch) /\ close (n + length cs + (nexp + nexp + 173)) (B2R (reactions64 ch)) (total_strength r cs * q)) /\
        (fin_nn (neutrons64 ch) /\ close (n + length cs + (nexp + nexp + 174)) (B2R (neutrons64 ch)) (INR (neutrons r) * total_strength r cs * q))) rs' chs').
      { intros rs' ds' chs' Fi H. revert chs'. induction H as [|r d rs' ds' Hr _ IH]; intros chs' Fr' Fo'; inversion Fo' as [|c0 y l0 l1 Hf Hfs]; subst; constructor; pose proof (Forall_inv Fr') as FR; [|apply IH; auto; [intros; apply Fi; now right|now apply (Forall_inv_tail Fr')]].
        pose proof (data_sum r d Hr) as CS. destruct Hr as (_ & Em & S). destruct Hf as (_ & _ & St & (F1 & C1) & (F2 & C2)). destruct FR as (_ & _ & _ & Fr0 & Cr0 & Fn0 & Cn0). unfold new64 in St, C1, C2, Cr0, Cn0. cbn [new_channel64 strength64 reactions64 neutrons64 multiplicity64] in *.
        destruct (mult_value r (Fi r (or_introl eq_refl))) as (_ & Vm & _). rewrite Em, Vm in *. rewrite <- (Forall2_len _ _ _ S) in Cr0. pose proof (close_trans _ _ _ _ _ Cr0 CS) as C3.
        split; [|split; (split; [assumption|])].
        - clear - S St CK Pq HK. set (ls := strength64 y) in *. set (ld := snd d) in *. clearbody ls ld n q. clear E. revert ls St. induction S as [|c s0 l ld C _ IH]; intros ls St; inversion St as [|? s1 ? ls1 Hs Hss]; subst; [constructor|]. constructor; [|now apply IH].
          destruct C as (_ & C & _). destruct Hs as (Fs & C'). split; [exact Fs|]. apply (close_weaken (1 + ((nexp + 84) + (n + 4 + (nexp + 84))))); [lia|]. eapply close_trans; [exact C'|]. now apply close_mult.
        - apply (close_weaken (1 + ((length cs + (nexp + 84)) + (n + 4 + (nexp + 84))))); [lia|]. eapply close_trans; [exact C1|]. now apply close_mult.
        - apply (close_weaken (1 + ((1 + (length cs + (nexp + 84))) + (n + 4 + (nexp + 84))))); [lia|]. eapply close_trans; [exact C2|]. apply close_mult; [|exact CK]. eapply close_trans; [exact Cn0|]. rewrite (Rmult_comm (INR (neutrons r))). apply close_mult_r; [apply pos_INR|exact C3]. }
      apply (G rs ds chs); auto. now apply Forall_forall. }
    assert (Nacc : forall m x y, (m <= 2 * n + (nexp + nexp + 180))%nat -> close m x y -> Rabs (x - y) <= accuracy rs cs * y) by (intros m x y Hm C; unfold accuracy; fold n; eapply rel_of; [exact N2|exact Hm|exact C]).
    set (acc := accuracy rs cs) in *. clearbody acc. split; [|split; [|split]].
    - assert (Lc : (length cs <= n)%nat) by lia. clearbody q n. clear - Ch Nacc Lc. induction Ch as [|r ch rs' chs (A & (B1 & B2) & (D1 & D2)) _ IH]; [constructor|]. constructor; [|exact IH]. split; [|split; (split; [apply B1 || apply D1|eapply Nacc; [|eassumption]; lia])].
      clear - A Nacc. clear Lc || idtac. revert A. generalize (strength64 ch). generalize cs. intros l l' A. induction A as [|c s l l' [F C] _ IH]; [constructor|]. constructor; [|exact IH]. split; [apply F|]. eapply Nacc; [|exact C]. lia.
    - (* neutron rate *)
      set (m := (n + length cs + (nexp + nexp + 174))%nat) in *.
      assert (Up : forall r, In r rs -> INR (neutrons r) * total_strength r cs * q <= bp 150).
      { intros r Ir. assert (Hr : fitted r) by (rewrite Forall_forall in Hrs; auto). destruct (mult_value r Hr) as (_ & _ & L1). pose proof (total_nonneg r cs Hr Hcs) as T1.
        assert (TE : total_strength r cs * B2R (energy r) <= E).
        { unfold E. clear - Ir Hrs He Hcs. induction rs as [|x l IH]; [destruct Ir|]. cbn [exact_power fold_right]. fold (exact_power energy l cs). inversion Hrs; subst.
          assert (Q : 0 <= exact_power energy l cs). { clear - H2 He Hcs. assert (He' : forall r, In r l -> between (-50) (-30) (energy r)) by (intros; apply He; now right). clear He. induction l as [|y l IH]; cbn [exact_power fold_right]; [lra|]. fold (exact_power energy l cs). inversion H2; subst. pose proof (total_nonneg y cs H1 Hcs). destruct (He' y (or_introl eq_refl)) as [_ [G _]]. rewrite two_bpow in G. pose proof (bp_pos (-50)). assert (0 <= total_strength y cs * B2R (energy y)) by (apply Rmult_le_pos; lra). assert (0 <= exact_power energy l cs) by (apply IH; auto; intros; apply He'; now right). lra. }
          destruct Ir as [->|Ir]; [lra|]. pose proof (total_nonneg x cs H1 Hcs). destruct (He x (or_introl eq_refl)) as [_ [G _]]. rewrite two_bpow in G. pose proof (bp_pos (-50)). assert (0 <= total_strength x cs * B2R (energy x)) by (apply Rmult_le_pos; lra).
          assert (total_strength r cs * B2R (energy r) <= exact_power energy l cs) by (apply IH; auto; intros; apply He; now right). lra. }
        destruct (He r Ir) as [_ [G _]]. rewrite two_bpow in G. pose proof (bp_pos (-50)).
        assert (TQ : total_strength r cs * q <= bp 150).
        { apply (Rmult_le_reg_r (bp (-50))); [apply bp_pos|]. rewrite bp_mul. change (150 + -50)%Z with 100%Z. apply Rle_trans with (total_strength r cs * q * B2R (energy r)); [apply Rmult_le_compat_l; [apply Rmult_le_pos; lra|lra]|].
          replace (total_strength r cs * q * B2R (energy r)) with (total_strength r cs * B2R (energy r) * q) by ring. apply Rle_trans with (E * q); [apply Rmult_le_compat_r; lra|]. unfold q. replace (E * (B2R P / E)) with (B2R P) by (field; lra). lra. }
        assert (NI : 0 <= INR (neutrons r) <= 1) by (split; [apply pos_INR|change 1 with (INR 1); now apply le_INR]). rewrite Rmult_assoc. assert (0 <= total_strength r cs * q) by (apply Rmult_le_pos; lra). nra. }
      assert (Sum : Forall fin_nn (map neutrons64 chs) /\ close m (exact_sum (map neutrons64 chs)) (exact_neutrons rs cs * q) /\ exact_neutrons rs cs * q <= INR (length rs) * bp 150 /\ length chs = length rs).
      { clearbody m q. clear - Ch Up. induction Ch as [|r ch l chs (_ & _ & (F1 & C1)) _ IH]; cbn [map exact_neutrons fold_right length].
        - split; [constructor|]. split; [apply (close_weaken 0); [lia|]; replace (0 * q) with 0 by ring; apply close_refl; cbn; lra|]. split; [cbn; lra|reflexivity].
        - fold (exact_neutrons l cs). destruct IH as (I1 & I2 & I3 & I4); [intros; apply Up; now right|]. split; [now constructor|]. rewrite Rmult_plus_distr_r. split; [change (exact_sum (neutrons64 ch :: map neutrons64 chs)) with (B2R (neutrons64 ch) + exact_sum (map neutrons64 chs)); now apply close_plus|]. split; [|now rewrite I4].
          rewrite S_INR. specialize (Up r (or_introl eq_refl)). lra. }
      destruct Sum as (S1 & S2 & S3 & S4).
      assert (Lrs : INR (length rs) <= bp 39) by (eapply Rle_trans; [|exact Hn]; apply le_INR; lia).
      assert (Wm : wp m <= bp 1). { apply wp_2, few. unfold m. rewrite !plus_INR, nexp_INR. replace (INR 174) with 174 by (rewrite INR_IZR_INZ; reflexivity). assert (INR (length cs) <= INR n) by (apply le_INR; lia). apply Rle_trans with (bp 39 + bp 39 + bp 20); [change (bp 20) with 1048576; lra|]. pose proof (bpow_le radix2 20 39 ltac:(lia)). apply Rle_trans with (bp 2 * bp 39); [change (bp 2) with 4; pose proof (bp_pos 39); lra|]. rewrite bp_mul. apply bpow_le. lia. }
      destruct (sums_close (map neutrons64 chs) (source_rate64 chs) (pysum64_sums _) S1) as (G1 & G2 & _).
      { rewrite map_length, S4. assert (W2 : wp (length rs) <= bp 1) by (apply wp_2, few; pose proof (bpow_le radix2 39 45 ltac:(lia)); lra). destruct (close_le _ _ _ S2 Wm) as [Q _]. pose proof (exact_sum_nonneg _ S1).
        apply Rle_trans with (bp 1 * (bp 39 * bp 150) * bp 1); [|rewrite !bp_mul; apply bpow_le; lia]. apply Rmult_le_compat; [lra|left; apply wp_pos| |exact W2]. apply Rle_trans with (1 := Q). apply Rmult_le_compat_l; [left; apply bp_pos|]. eapply Rle_trans; [exact S3|]. apply Rmult_le_compat_r; [left; apply bp_pos|exact Lrs]. }
      split; [apply G1|]. rewrite map_length, S4 in G2. pose proof (close_trans _ _ _ _ _ G2 S2) as G3. eapply Nacc; [|exact G3]. unfold m. lia.
    - (* power *)
      destruct (follows_cells _ _ _ _ Fo) as [Ec Elen]. destruct (total_close npsum Hnp chs Rg) as [G C2]; [rewrite Ec, Elen, Sz2; pose proof (bpow_le radix2 39 40 ltac:(lia)); lra|]. split; [apply G|]. rewrite Ec, Elen, Sz2 in C2.
      pose proof (close_trans _ _ _ _ _ C2 Cp) as C3. replace (n + 1 + (n + 3))%nat with (2 * n + 4)%nat in C3 by lia. apply close_within in C3; [exact C3|]. apply few. rewrite plus_INR. replace (INR 4) with 4 by (cbn; lra). pose proof (bpow_le radix2 41 42 ltac:(lia)). apply Rle_trans with (bp 41 + bp 41); [change 4 with (bp 2); pose proof (bpow_le radix2 2 41 ltac:(lia)); lra|]. rewrite bp_double. apply bpow_le. lia.
    - now apply Hw.
  Qed.

  Lemma raw_ok : exists chs w, make_source64 spow vpow vexp npsum energy (map cell_T cs) (map cell_n cs) (map cell_V cs) rs None = Some (Ok (chs, w)) /\
      Forall2 (fun r ch =>
        Forall2 (fun c s => rel_error (accuracy rs cs) s (exact_strength r c)) cs (strength64 ch) /\
        rel_error (accuracy rs cs) (reactions64 ch) (total_strength r cs) /\
        rel_error (accuracy rs cs) (neutrons64 ch) (INR (neutrons r) * total_strength r cs)) rs chs /\
      rel_error (accuracy rs cs) (total_power64 npsum chs) (exact_power energy rs cs) /\
      (w = [] <-> forall c, In c cs -> 0.2 <= B2R (cell_T c) <= 100).
  Proof.
    clear Hpos.
    destruct (loop_ok rs Hrs) as (ds & w & El & Hd & Hw). unfold make_source64. rewrite El. cbn [bind fst snd]. exists (map new64 ds), w. split; [reflexivity|].
    destruct (data_size ds Hd) as [Sz Sz2]. set (n := work rs cs) in *. pose proof Hsize as Hn. rewrite two_bpow in Hn.
    assert (HO : Forall ordinary ds). { apply Forall_forall. intros d Id. destruct (Forall2_in _ _ _ d Hd Id) as (r & Ir & H). now apply (data_ordinary r d). }
    assert (Fr : Forall fresh (map new64 ds)) by (apply ordinary_all; [exact HO|rewrite Sz2; exact Hn]).
    assert (Lcs : (length cs + length rs <= n)%nat) by (unfold n, work; destruct rs as [|r0 rs0]; [now elim Nrs|]; cbn [length]; nia).
    assert (N2 : INR (2 * n) <= bp 41). { rewrite mult_INR. replace (INR 2) with 2 by (cbn; lra). replace (bp 41) with (4 * bp 39) by (change 4 with (bp 2); rewrite bp_mul; reflexivity). pose proof (bp_pos 39). lra. }
    assert (Nacc : forall m x y, (m <= 2 * n + (nexp + nexp + 180))%nat -> close m x y -> Rabs (x - y) <= accuracy rs cs * y) by (intros m x y Hm C; unfold accuracy; fold n; eapply rel_of; [exact N2|exact Hm|exact C]).
    pose proof (power_close ds Hd) as CE. split; [|split; [|now apply Hw]].
    - set (acc := accuracy rs cs) in *. clearbody acc. assert (Lc : (length cs <= n)%nat) by lia. clearbody n. assert (Fi : forall r, In r rs -> fitted r) by now apply Forall_forall. clear - Hd Fr Nacc Lc Fi.
      induction Hd as [|r d l ds Hr _ IH]; cbn [map]; [constructor|]. pose proof (Forall_inv Fr) as FR. constructor; [|apply IH; [now apply (Forall_inv_tail Fr)|intros; apply Fi; now right]].
      pose proof (data_sum r d Hr) as CS. destruct Hr as (_ & Em & S). destruct FR as (_ & _ & _ & Fr0 & Cr0 & Fn0 & Cn0). unfold new64 in *. cbn [new_channel64 strength64 reactions64 neutrons64 multiplicity64] in *.
      destruct (mult_value r (Fi r (or_introl eq_refl))) as (_ & Vm & _). rewrite Em, Vm in *. rewrite <- (Forall2_len _ _ _ S) in Cr0. pose proof (close_trans _ _ _ _ _ Cr0 CS) as C3. split; [|split].
      + clear - S Nacc. revert S. generalize (snd d). generalize cs. intros l l' S. induction S as [|c s l l' (F & C & _) _ IH]; [constructor|]. constructor; [|exact IH]. split; [apply F|]. eapply Nacc; [|exact C]. lia.
      + split; [apply Fr0|]. eapply Nacc; [|exact C3]. lia.
      + split; [apply Fn0|]. eapply (Nacc (1 + (length cs + (nexp + 84)))%nat); [lia|]. eapply close_trans; [exact Cn0|]. rewrite (Rmult_comm (INR (neutrons r))). apply close_mult_r; [apply pos_INR|exact C3].
    - destruct (total_close npsum Hnp (map new64 ds)) as [G C2]; [eapply Forall_impl; [|exact Fr]; exact fresh_ranged|rewrite Sz2; pose proof (bpow_le radix2 39 40 ltac:(lia)); lra|]. rewrite Sz2 in C2. split; [apply G|]. eapply Nacc; [|eapply close_trans; [exact C2|exact CE]]. lia.
  Qed.
End C99.

(** ** The theorems *)
(** Without a given power: strengths, rates and the reported fusion power are those of the published fits. *)
Theorem C99_given_profiles : forall spow vpow vexp npsum energy cs rs,
  good_pow spow -> (forall i, good_pow (vpow i)) -> (forall i, good_exp (vexp i)) -> (forall l, sums l (npsum l)) ->
  cs <> [] -> Forall plasma_cell cs -> rs <> [] -> Forall fitted rs -> (forall r, In r rs -> between (-50) (-30) (energy r)) -> INR (work rs cs) <= two 39 ->
  exists chs w, make_source64 spow vpow vexp npsum energy (map cell_T cs) (map cell_n cs) (map cell_V cs) rs None = Some (Ok (chs, w)) /\
    Forall2 (fun r ch =>
      Forall2 (fun c s => rel_error (accuracy rs cs) s (exact_strength r c)) cs (strength64 ch) /\
      rel_error (accuracy rs cs) (reactions64 ch) (total_strength r cs) /\
      rel_error (accuracy rs cs) (neutrons64 ch) (INR (neutrons r) * total_strength r cs)) rs chs /\
    rel_error (accuracy rs cs) (total_power64 npsum chs) (exact_power energy rs cs) /\
    (w = [] <-> forall c, In c cs -> 0.2 <= B2R (cell_T c) <= 100).
Proof. intros. apply raw_ok; assumption. Qed.
Print Assumptions C99_given_profiles.

(** With a given power P every number is the published one times P / (published power), and the reported power is P. *)
Theorem C99_given_power : forall spow vpow vexp npsum energy cs rs P,
  good_pow spow -> (forall i, good_pow (vpow i)) -> (forall i, good_exp (vexp i)) -> (forall l, sums l (npsum l)) ->
  cs <> [] -> Forall plasma_cell cs -> rs <> [] -> Forall fitted rs -> (forall r, In r rs -> between (-50) (-30) (energy r)) -> INR (work rs cs) <= two 39 ->
  (exists r c, In r rs /\ In c cs /\ 0 < exact_strength r c) -> between (-100) 100 P ->
  let factor := B2R P / exact_power energy rs cs in
  exists chs w, make_source64 spow vpow vexp npsum energy (map cell_T cs) (map cell_n cs) (map cell_V cs) rs (Some P) = Some (Ok (chs, w)) /\
    0 < exact_power energy rs cs /\
    Forall2 (fun r ch =>
      Forall2 (fun c s => rel_error (accuracy rs cs) s (exact_strength r c * factor)) cs (strength64 ch) /\
      rel_error (accuracy rs cs) (reactions64 ch) (total_strength r cs * factor) /\
      rel_error (accuracy rs cs) (neutrons64 ch) (INR (neutrons r) * total_strength r cs * factor)) rs chs /\
    rel_error (accuracy rs cs) (source_rate64 chs) (exact_neutrons rs cs * factor) /\
    rel_error (INR (2 * work rs cs + 4) / 2 ^ 52) (total_power64 npsum chs) (B2R P) /\
    (w = [] <-> forall c, In c cs -> 0.2 <= B2R (cell_T c) <= 100).
Proof. intros. apply source_ok; assumption. Qed.
Print Assumptions C99_given_power.

Lemma E_DT_range : between (-50) (-30) E_DT.
Proof. lit_range. Qed.
Lemma GW_range : between (-100) 100 GW.
Proof. lit_range. Qed.
(** ** The hypotheses are met: the cells of C98_hypotheses, D-T and both D-D reactions, the D-T energy for all, 1 GW *)
Example C99_hypotheses : let rs := [DT; DDn; DDp] in let energy := fun _ : reaction => E_DT in
  Forall plasma_cell ex_cells /\ Forall fitted rs /\ (forall r, In r rs -> between (-50) (-30) (energy r)) /\ INR (work rs ex_cells) <= two 39 /\
  (exists r c, In r rs /\ In c ex_cells /\ 0 < exact_strength r c) /\ between (-100) 100 GW.
Proof.
  destruct (normalize_exact 1 66 false ltac:(lia) ltac:(lia)) as [Fd Vd]. rewrite Rmult_1_l in Vd. pose proof (bpow_le radix2 0 66 ltac:(lia)) as L1. pose proof (bpow_le radix2 66 80 ltac:(lia)) as L2. change (bp 0) with 1 in L1.
  destruct (f64_of_Z_exact 10 ltac:(lia)) as [F10 V10].
  assert (D : plasma_density (binary_normalize 53 1024 Hprec64 Hmax64 mode_NE 1 66 false)) by (split; [exact Fd|right; rewrite Vd, two_bpow; lra]).
  assert (Z : plasma_density f0) by (split; [reflexivity|now left]).
  assert (T1 : is_finite (f64_of_Z 10) = true /\ (B2R (f64_of_Z 10) <= 0 \/ 0.2 <= B2R (f64_of_Z 10) <= 100)) by (split; [exact F10|right; rewrite V10; lra]).
  assert (T2 : is_finite f0 = true /\ (B2R f0 <= 0 \/ 0.2 <= B2R f0 <= 100)) by (split; [reflexivity|left; change (B2R f0) with 0; lra]).
  assert (V1 : B2R f1 = 1) by (destruct (f64_of_Z_exact 1 ltac:(lia)) as [_ V]; exact V).
  assert (VH : B2R (dec64 5 1) = / 2) by (rewrite <- SF2R_B2SF; replace (B2SF (dec64 5 1)) with (S754_finite false 4503599627370496 (-53)) by (vm_compute; reflexivity); cbn [SF2R]; unfold F2R; cbn [Fnum Fexp cond_Zopp]; change (bp (-53)) with (/ 9007199254740992); lra).
  pose proof (bpow_le radix2 (-60) (-1) ltac:(lia)) as B1. pose proof (bpow_le radix2 0 20 ltac:(lia)) as B2. change (bp (-1)) with (/ 2) in B1. change (bp 0) with 1 in B2.
  assert (W1 : between (-60) 20 f1) by (split; [reflexivity|rewrite !two_bpow, V1; lra]).
  assert (WH : between (-60) 20 (dec64 5 1)) by (split; [vm_compute; reflexivity|rewrite !two_bpow, VH; lra]).
  intros rs energy. split; [|split; [|split; [|split; [|split]]]].
  - constructor; [exact (conj T1 (conj D (conj D (conj Z WH))))|]. constructor; [exact (conj T2 (conj D (conj D (conj Z W1))))|]. constructor.
  - unfold rs, fitted. constructor; [tauto|constructor; [tauto|constructor; [tauto|constructor]]].
  - intros r _. exact E_DT_range.
  - rewrite two_bpow. pose proof (bpow_le radix2 4 39 ltac:(lia)) as B. change (bp 4) with 16 in B. cbn. lra.
  - exists DT, {| cell_T := f64_of_Z 10; cell_n := ex_dens; cell_V := dec64 5 1 |}. split; [now left|]. split; [now left|]. unfold exact_strength. match goal with |- context [equation ?l] => let e := eval vm_compute in (equation l) in change (equation l) with e end.
    cbn [cell_T cell_n cell_V ex_dens nd64 nt64 nhe3_64]. unfold pair_density. cbn [fuel]. destruct (nuclide_eq_dec nD nT); [discriminate|]. rewrite Vd, VH. pose proof (low_SI DT (f64_of_Z 10) (or_introl eq_refl) F10 ltac:(rewrite V10; lra)) as L. pose proof (bp_pos (-170)). pose proof (bp_pos 66).
    repeat apply Rmult_lt_0_compat; lra.
  - exact GW_range.
Qed.
