(** C107: the cross-section reactivity in the arithmetic the computer uses (binary64). *)
From Coq Require Import ZArith Bool Reals Lra Lia List.
From Flocq Require Import Core.Core IEEE754.BinarySingleNaN.
From Verif Require Import Base FloatComp FloatCompProofs FloatCompAcc FloatSource SpecFloatSource FloatSourceProofs P_FloatSource FloatSpace FloatSpaceProofs FloatProfile FloatProfileProofs.
From Verif Require Import SpecReactivity ReactivityProofs FloatReactivity SpecFloatReactivity FloatReactivityProofs P_FloatReactivity.
From Verif Require Import FloatEnergy FloatSpectrumProofs FloatXs SpecFloatXs FloatXsProofs.
Import ListNotations.
Open Scope R_scope.
Local Notation bp := (bpow radix2).

Lemma mapM_seq {B} (f : f64 -> res B) (e : nat -> f64) (s : nat -> B) l : (forall i, In i l -> f (e i) = Ok (s i)) -> mapM f (map e l) = Ok (map s l).
Proof.
  induction l as [|a l IH]; intro H; [reflexivity|]. cbn [map mapM]. rewrite (H a) by now left. cbn [bind]. rewrite IH by (intros; apply H; now right). reflexivity.
Qed.
Lemma map2_seq_Forall2 {A B} (P : A -> B -> Prop) (f : nat -> A -> B) l : forall a, (forall j x, In x l -> P x (f j x)) -> Forall2 P l (map2 f (seq a (length l)) l).
Proof.
  induction l as [|x l IH]; intros a H; [constructor|]. cbn [length seq map2]. constructor; [apply H; now left|]. apply IH. intros; apply H; now right.
Qed.

Lemma last_indep {A} (l : list A) : forall p d d', last (p :: l) d = last (p :: l) d'.
Proof. induction l as [|q l IH]; intros; [reflexivity|]. exact (IH q d d'). Qed.

(** The thousand energies: log-spaced from 1 keV to 1000 keV, up to 47 roundings (5.3e-15). *)
Theorem C107_energies : forall vpow, (forall i, good_pow (vpow i)) ->
  length (t_grid_kev64 vpow) = 1000%nat /\
  forall i e, nth_error (t_grid_kev64 vpow) i = Some e -> rel_error (47 / 2 ^ 53) e (log_node i).
Proof.
  intros vpow Vp. rewrite grid_map. split; [now rewrite map_length, seq_length|]. intros i e H.
  assert (Hi : (i < 1000)%nat). { assert (N : nth_error (map (FloatXsProofs.e64 vpow) (seq 0 1000)) i <> None) by congruence. apply nth_error_Some in N. now rewrite map_length, seq_length in N. }
  rewrite nth_error_map, (nth_error_nth' _ 0%nat) in H by (rewrite seq_length; exact Hi). rewrite seq_nth in H by exact Hi. injection H as <-. cbn [Nat.add].
  destruct (FloatXsProofs.e64_ok vpow Vp i Hi) as ([F _] & C & B). split; [exact F|]. change (bp 0) with 1 in B.
  apply close_abs in C; [|small_n]. replace (INR 46) with 46 in C by (rewrite INR_IZR_INZ; reflexivity). eapply Rle_trans; [exact C|].
  replace (47 / 2 ^ 53) with (47 * uu). 2:{ rewrite uu_val, (pow_IZR 2 53). change (Z.of_nat 53) with 53%Z. unfold Rdiv. ring. }
  pose proof uu_pos. assert (0 <= uu * log_node i) by (apply Rmult_le_pos; lra). lra.
Qed.
Print Assumptions C107_energies.

(** The reactivity: for temperatures from 4 keV to 1000 keV, and a table that gives a cross section s i between 2^-150 and 2^-90 m^2 at the i-th energy,
    every temperature gets the Maxwell average of those cross sections, up to 31000 roundings (3.5e-12). *)
Theorem C107_maxwell_average : forall fused vpow vexp npsum k mu tab temps s,
  (forall i, good_pow (vpow i)) -> (forall i, good_exp (vexp i)) -> (forall l, sums l (npsum l)) ->
  between (-53) (-52) k -> between (-90) (-88) mu ->
  (forall i e, nth_error (t_grid_kev64 vpow) i = Some e -> interp1d_call64 fused tab e = Ok (s i) /\ between (-150) (-90) (s i)) ->
  Forall (fun T => is_finite T = true /\ 4 <= B2R T <= 1000) temps ->
  exists v, reactivity_from_xs64 fused vpow vexp npsum k temps {| xs_tab64 := tab; xs_mass64 := mu |} = Ok v /\
    Forall2 (fun T r => 0 < B2R r /\ rel_error (31000 / 2 ^ 53) r (maxwell_average (B2R k) (B2R mu) (B2R T) (fun i => B2R (s i)))) temps v.
Proof.
  intros fused vpow vexp npsum k mu tab temps s Vp Ve Hs [Fk Bk] [Fm Bm] Hx HT. rewrite !two_bpow in Bk, Bm.
  assert (Hi : forall i, (i < 1000)%nat -> interp1d_call64 fused tab (FloatXsProofs.e64 vpow i) = Ok (s i) /\ between (-150) (-90) (s i)).
  { intros i Hi. apply Hx. rewrite grid_map, nth_error_map, (nth_error_nth' _ 0%nat) by (rewrite seq_length; exact Hi). now rewrite seq_nth. }
  unfold reactivity_from_xs64. cbn [xs_tab64 xs_mass64]. rewrite grid_map, (mapM_seq _ _ s) by (intros i H; apply in_seq in H; apply Hi; lia). cbn [bind].
  eexists. split; [reflexivity|]. apply map2_seq_Forall2. intros j T HIn. destruct (proj1 (Forall_forall _ _) HT T HIn) as [FT BT].
  destruct (row_result vpow vexp npsum k mu Vp Ve Hs Fk Bk Fm Bm T j s FT BT) as (F & P & C).
  { intros i H. destruct (Hi i H) as [_ [Fs Bs]]. rewrite !two_bpow in Bs. now split. }
  split; [exact P|]. split; [exact F|]. pose proof uu_1e15. pose proof uu_pos. assert (0 <= maxwell_average (B2R k) (B2R mu) (B2R T) (fun i => B2R (s i))) as M by apply C. apply rclose_abs in C; [|lra|lra]. eapply Rle_trans; [exact C|].
  replace (31000 / 2 ^ 53) with (31000 * uu). 2:{ rewrite uu_val, (pow_IZR 2 53). change (Z.of_nat 53) with 53%Z. unfold Rdiv. ring. }
  apply Rmult_le_compat_r; lra.
Qed.
Print Assumptions C107_maxwell_average.

(** An energy outside the table is an error, whatever the temperatures (also for none). *)
Theorem C107_outside_table : forall fused vpow vexp npsum k mu (x0 y0 : f64) (rest : list (f64 * f64)) temps,
  (forall i, good_pow (vpow i)) -> Forall (fun p : f64 * f64 => is_finite (fst p) = true) ((x0, y0) :: rest) ->
  (exists i e, nth_error (t_grid_kev64 vpow) i = Some e /\ (B2R e < B2R x0 \/ B2R (fst (last rest (x0, y0))) < B2R e)) ->
  reactivity_from_xs64 fused vpow vexp npsum k temps {| xs_tab64 := (x0, y0) :: rest; xs_mass64 := mu |} = Err EValue.
Proof.
  intros fused vpow vexp npsum k mu x0 y0 rest temps Vp HF (i & e & Hn & O). unfold reactivity_from_xs64. cbn [xs_tab64].
  assert (F : is_finite e = true) by exact (proj1 (proj2 (C107_energies vpow Vp) i e Hn)). apply nth_error_In in Hn.
  assert (El : forall r a b, last_x64 a r = fst (last r (a, b))) by (induction r as [|[x1 y1] r IH]; intros a b; [reflexivity|]; destruct r as [|p r]; [reflexivity|]; change (last_x64 x1 (p :: r) = fst (last (p :: r) (a, b))); rewrite (last_indep r p (a, b) (x1, y1)); exact (IH x1 y1)).
  assert (Fl : is_finite (fst (last rest (x0, y0))) = true). { apply (proj1 (Forall_forall _ _) HF). clear. revert x0 y0. induction rest as [|[x1 y1] r IH]; intros; [now left|]. right. destruct r as [|p r]; [now left|]. change (In (last (p :: r) (x0, y0)) ((x1, y1) :: p :: r)). rewrite (last_indep r p (x0, y0) (x1, y1)). exact (IH x1 y1). }
  assert (Ex : interp1d_call64 fused ((x0, y0) :: rest) e = Err EValue).
  { cbn [interp1d_call64]. rewrite (El rest x0 y0). destruct (Bltb e x0) eqn:E1; [reflexivity|]. apply ltb_val_f in E1; [|exact F|exact (Forall_inv HF)]. destruct O as [O|O]; [lra|].
    assert (Bltb (fst (last rest (x0, y0))) e = true) as -> by (now apply ltb_val). reflexivity. }
  assert (Q : forall l, In e l -> mapM (interp1d_call64 fused ((x0, y0) :: rest)) l = Err EValue).
  { induction l as [|a l IH]; [intros []|]. intros [-> |H]; cbn [mapM]; [now rewrite Ex|]. rewrite (IH H).
    assert (A : (exists b, interp1d_call64 fused ((x0, y0) :: rest) a = Ok b) \/ interp1d_call64 fused ((x0, y0) :: rest) a = Err EValue).
    { cbn [interp1d_call64]. destruct (Bltb a x0); [now right|]. destruct (Bltb (last_x64 x0 rest) a); [now right|]. left. destruct (is_nan a); eauto. }
    destruct A as [[b ->]| ->]; reflexivity. }
  now rewrite (Q _ Hn).
Qed.
Print Assumptions C107_outside_table.

(** The hypotheses are met: a table with the same cross section of 2^-100 m^2 at 1/2 keV and at 2048 keV, a keV of 2^-53 J, a mass of 2^-89 kg. *)
Definition pow2 (e : Z) : f64 := binary_normalize 53 1024 Hprec64 Hmax64 mode_NE 1 e false.
Definition flat_table : list (f64 * f64) := [(pow2 (-1), pow2 (-100)); (pow2 11, pow2 (-100))].
Lemma pow2_ok e : (-1000 <= e <= 900)%Z -> is_finite (pow2 e) = true /\ B2R (pow2 e) = bp e.
Proof. intro H. destruct (normalize_exact 1 e false) as [F V]; [reflexivity|lia|]. split; [exact F|]. unfold pow2. rewrite V. apply Rmult_1_l. Qed.
Lemma flat_lookup fused (v : f64) : is_finite v = true -> 0.6 <= B2R v <= 2000 -> interp1d_call64 fused flat_table v = Ok (pow2 (-100)).
Proof.
  intros F B. destruct (pow2_ok (-1) ltac:(lia)) as [F0 V0]. destruct (pow2_ok 11 ltac:(lia)) as [F1 V1]. destruct (pow2_ok (-100) ltac:(lia)) as [Fy Vy]. change (bp (-1)) with (/ 2) in V0. change (bp 11) with 2048 in V1.
  unfold flat_table. cbn [interp1d_call64 last_x64].
  assert (Bltb v (pow2 (-1)) = false) as -> by (apply ltb_val_f; [assumption..|lra]). assert (Bltb (pow2 11) v = false) as -> by (apply ltb_val_f; [assumption..|lra]). rewrite (not_nan v F).
  cbn [interp_from64]. assert (Bleb (pow2 11) v = false) as -> by (apply leb_val_f; [assumption..|lra]). assert (Beqb (pow2 (-1)) v = false) as -> by (apply eqb_val_f; [assumption..|lra]). cbv zeta.
  assert (Sl : fdiv (fsub (pow2 (-100)) (pow2 (-100))) (fsub (pow2 11) (pow2 (-1))) = B754_zero false) by (vm_compute; reflexivity). rewrite Sl.
  set (y := pow2 (-100)) in *. assert (Y : exists sy m e Hb, y = B754_finite sy m e Hb).
  { clearbody y. destruct y as [sy|sy| |sy m e Hb]; try discriminate Fy; [|eauto]. exfalso. cbn in Vy. pose proof (bp_pos (-100)). lra. }
  destruct Y as (sy & m & e & Hb & Y).
  assert (W : is_finite (fsub v (pow2 (-1))) = true).
  { destruct (fsub_cases v (pow2 (-1)) F F0) as [_ H]; [|exact H]. apply rnd_top. rewrite V0. pose proof (bpow_le radix2 11 1023 ltac:(lia)) as B2. change (bp 11) with 2048 in B2. lra. }
  assert (M : muladd64 fused (B754_zero false) (fsub v (pow2 (-1))) y = y).
  { rewrite Y. unfold muladd64. destruct (fsub v (pow2 (-1))) as [s1|s1| |s1 m1 e1 H1]; try discriminate W; destruct fused; reflexivity. }
  rewrite M. clear - Fy. clearbody y. destruct y; try discriminate Fy; reflexivity.
Qed.
Example C107_hypotheses : (forall i : nat, good_pow ((fun _ => pow_nearest) i)) /\ (forall i : nat, good_exp ((fun _ => exp_nearest) i)) /\ (forall l, sums l (pysum64 l)) /\
  between (-53) (-52) (pow2 (-53)) /\ between (-90) (-88) (pow2 (-89)) /\
  (forall i e, nth_error (t_grid_kev64 (fun _ => pow_nearest)) i = Some e -> interp1d_call64 false flat_table e = Ok (pow2 (-100)) /\ between (-150) (-90) (pow2 (-100))) /\
  is_finite (f64_of_Z 10) = true /\ 4 <= B2R (f64_of_Z 10) <= 1000.
Proof.
  assert (P : forall i : nat, good_pow ((fun _ => pow_nearest) i)) by (intro; apply C98_libm). split; [exact P|]. split; [intro; apply C98_libm|]. split; [apply C83_npsum|].
  assert (Bt : forall a b e, (-1000 <= e <= 900)%Z -> (a <= e <= b)%Z -> between a b (pow2 e)).
  { intros a b e He H. destruct (pow2_ok e He) as [F V]. split; [exact F|]. rewrite V, !two_bpow. split; apply bpow_le; lia. }
  split; [apply Bt; lia|]. split; [apply Bt; lia|]. split.
  - intros i e H. split; [|apply Bt; lia]. pose proof (proj2 (C107_energies _ P) i e H) as [F E].
    assert (Hi : (i < 1000)%nat). { rewrite <- (proj1 (C107_energies _ P)). apply nth_error_Some. congruence. }
    pose proof (log_node_range i Hi) as R. apply flat_lookup; [exact F|]. apply Rabs_le_inv in E. replace (47 / 2 ^ 53) with (47 * uu) in E by (rewrite uu_val, (pow_IZR 2 53); change (Z.of_nat 53) with 53%Z; unfold Rdiv; ring).
    pose proof uu_1e15. pose proof uu_pos. assert (0 <= uu * log_node i <= / 1000000 * log_node i) by (split; [apply Rmult_le_pos; lra|apply Rmult_le_compat_r; lra]). lra.
  - destruct (f64_of_Z_exact 10 ltac:(lia)) as [F V]. split; [exact F|]. rewrite V. lra.
Qed.
