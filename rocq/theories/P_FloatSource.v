(** C83: fusion power normalisation in the arithmetic the computer uses (binary64). *)
From Coq Require Import ZArith Bool Reals Lra Lia List Permutation Floats.SpecFloat.
From Flocq Require Import Core.Core IEEE754.BinarySingleNaN.
From Verif Require Import Base FloatComp FloatCompProofs FloatCompAcc FloatSource SpecFloatSource FloatSourceProofs.
Local Open Scope R_scope.
Local Notation bp := (bpow radix2).

Lemma enough n : INR n <= bp 44 -> INR n * uu <= / 2.
Proof. intro H. apply few. pose proof (bpow_le radix2 44 45 ltac:(lia)). lra. Qed.

Section C83.
  (** np.sum adds in some order. *)
  Variable npsum : list f64 -> f64.
  Hypothesis npsum_sums : forall l, sums l (npsum l).
  (** A source with numbers of ordinary size, not all strengths zero. *)
  Variable ds : list data.
  Hypothesis ds_ordinary : Forall ordinary ds.
  Hypothesis ds_positive : exists d s, In d ds /\ In s (snd d) /\ 0 < B2R s.
  Hypothesis ds_size : INR (size ds) <= two 39.

  Lemma ds_setup : let cs0 := map new64 ds in Forall fresh cs0 /\ 0 < total_power cs0 /\ cs0 <> [] /\ INR (cells_of cs0 + length cs0) <= bp 39.
  Proof.
    intro cs0. rewrite two_bpow in ds_size. assert (L : INR (cells_of cs0 + length cs0) <= bp 39) by (unfold cs0; rewrite map_length; exact ds_size).
    pose proof (ordinary_all ds ds_ordinary L) as F. split; [exact F|]. split; [now apply ordinary_power|]. split; [|exact L]. destruct ds_positive as (d & s & H & _). unfold cs0. destruct ds; [destruct H|discriminate].
  Qed.
  Lemma many Ps : Forall (between (-100) 100) Ps -> INR (length Ps) <= two 40 ->
    let cs0 := map new64 ds in exists K cs, normalise_all64 npsum cs0 Ps = Ok cs /\ normalised cs0 (length Ps) K cs /\
      (forall P, last (map Some Ps) None = Some P -> close (size ds + 3) (total_power cs) (B2R P)).
  Proof.
    intros HP L cs0. rewrite two_bpow in L. destruct ds_setup as (F & T & Ne & S). destruct (history npsum npsum_sums Ps cs0 0 1 cs0 F Ne (start cs0 F T) L S HP) as (K & cs & E & N & C).
    exists K, cs. split; [exact E|]. split; [exact N|]. unfold size. unfold cs0 in C. rewrite map_length in C. exact C.
  Qed.

  Lemma reported_power Ps P : Forall (between (-100) 100) (Ps ++ [P]) -> INR (length (Ps ++ [P])) <= two 40 ->
    exists cs, normalise_all64 npsum (map new64 ds) (Ps ++ [P]) = Ok cs /\
      is_finite (total_power64 npsum cs) = true /\ within (2 * size ds + 4) (B2R (total_power64 npsum cs)) (B2R P).
  Proof.
    intros HP L. destruct (many _ HP L) as (K & cs & E & (HK & Fo & R & T) & C). exists cs. split; [exact E|].
    specialize (C P). rewrite map_app in C. cbn [map] in C. rewrite last_last in C. specialize (C eq_refl).
    destruct (follows_cells _ _ _ _ Fo) as [Ec El]. rewrite map_length in El. destruct ds_setup as (_ & _ & _ & S). rewrite map_length in S. fold (size ds) in S.
    assert (L40 : bp 39 <= bp 40) by (apply bpow_le; lia).
    destruct (total_close npsum npsum_sums cs R) as [G C2]; [rewrite Ec, El; fold (size ds); lra|]. split; [apply G|].
    apply close_within.
    - apply enough. rewrite plus_INR, mult_INR. change (INR 2) with 2. change (INR 4) with (2 + 1 + 1). assert (1 <= bp 39) by (change 1 with (bp 0); apply bpow_le; lia). apply Rle_trans with (bp 3 * bp 39); [change (bp 3) with 8; lra|]. rewrite bp_mul. apply bpow_le. lia.
    - rewrite Ec, El in C2. fold (size ds) in C2. replace (2 * size ds + 4)%nat with (size ds + 1 + (size ds + 3))%nat by lia. eapply close_trans; [exact C2|exact C].
  Qed.

  Lemma one_factor Ps : Forall (between (-100) 100) Ps -> INR (length Ps) <= two 40 ->
    exists cs K, normalise_all64 npsum (map new64 ds) Ps = Ok cs /\ 0 < K /\
      Forall2 (fun c0 c => energy64 c = energy64 c0 /\ multiplicity64 c = multiplicity64 c0 /\
        Forall2 (fun s0 s => is_finite s = true /\ within (length Ps) (B2R s) (B2R s0 * K)) (strength64 c0) (strength64 c) /\
        is_finite (reactions64 c) = true /\ within (length Ps) (B2R (reactions64 c)) (B2R (reactions64 c0) * K) /\
        is_finite (neutrons64 c) = true /\ within (length Ps) (B2R (neutrons64 c)) (B2R (neutrons64 c0) * K)) (map new64 ds) cs.
  Proof.
    intros HP L. destruct (many _ HP L) as (K & cs & E & (HK & Fo & _ & _) & _). exists cs, K. split; [exact E|]. split; [exact HK|].
    assert (N : INR (length Ps) * uu <= / 2) by (apply enough; rewrite two_bpow in L; pose proof (bpow_le radix2 40 44 ltac:(lia)); lra).
    clear - Fo N. induction Fo as [|c0 c cs0 cs (A & B & S & (F1 & C1) & (F2 & C2)) _ IH]; constructor; [|exact IH].
    split; [exact A|]. split; [exact B|]. split; [|repeat split; try apply F1; try apply F2; now apply close_within].
    clear - S N. induction S as [|s0 s l0 l [F C] _ IH]; constructor; [|exact IH]. split; [apply F|now apply close_within].
  Qed.

  Lemma rates_close Ps : Forall (between (-100) 100) Ps -> INR (length Ps) <= two 40 ->
    exists K cs, normalise_all64 npsum (map new64 ds) Ps = Ok cs /\ normalised (map new64 ds) (length Ps) K cs /\
      Forall (fun c => let n := (length (strength64 c) + 2 * length Ps)%nat in
        within n (B2R (reactions64 c)) (exact_sum (strength64 c)) /\
        within (n + 1) (B2R (neutrons64 c)) (exact_sum (strength64 c) * B2R (multiplicity64 c))) cs /\
      fin_nn (source_rate64 cs) /\ close (size ds + 2 * length Ps + 1) (B2R (source_rate64 cs)) (exact_rate cs) /\ INR (size ds + 2 * length Ps + 1) <= bp 44 /\ exact_rate cs <= bp 260.
  Proof.
    intros HP L. destruct (many _ HP L) as (K & cs & E & N0 & _). exists K, cs. split; [exact E|]. split; [exact N0|]. destruct N0 as (HK & Fo & R & T). set (j := length Ps) in *.
    destruct ds_setup as (F & _ & _ & S). rewrite map_length in S. fold (size ds) in S. rewrite two_bpow in L.
    assert (Each : forall c, In c cs -> fin_nn (neutrons64 c) /\ close (length (strength64 c) + 2 * j) (B2R (reactions64 c)) (exact_sum (strength64 c)) /\ close (length (strength64 c) + 2 * j + 1) (B2R (neutrons64 c)) (exact_sum (strength64 c) * B2R (multiplicity64 c))).
    { intros c Hc. assert (X : exists c0, In c0 (map new64 ds) /\ follows j K c0 c) by (clear - Fo Hc; induction Fo as [|c0 c' cs0 cs H _ IH]; [destruct Hc|]; destruct Hc as [->|Hc]; [exists c0; split; [now left|exact H]|destruct (IH Hc) as (x & Hx & Hf); exists x; split; [now right|exact Hf]]).
      destruct X as (c0 & H0 & Hf). rewrite Forall_forall in F. destruct (F c0 H0) as (_ & Mo & _ & _ & Cr0 & _ & Cn0). pose proof (follows_sum j K c0 c ltac:(lra) Hf) as Cs. rewrite <- (follows_length _ _ _ _ Hf) in Cr0.
      destruct Hf as (_ & M & _ & (_ & Cr) & (Fn & Cn)). split; [exact Fn|]. set (n := length (strength64 c)) in *. split.
      - replace (n + 2 * j)%nat with (j + (n + j))%nat by lia. eapply close_trans; [exact Cr|]. apply (close_trans n j _ (exact_sum (strength64 c0) * K)); [apply close_mult_r; [lra|exact Cr0]|now apply close_sym].
      - rewrite M. replace (n + 2 * j + 1)%nat with (j + (1 + (n + j)))%nat by lia. eapply close_trans; [exact Cn|]. apply (close_trans 1 (n + j) _ (B2R (reactions64 c0) * B2R (multiplicity64 c0) * K)); [apply close_mult_r; [lra|exact Cn0]|].
        replace (B2R (reactions64 c0) * B2R (multiplicity64 c0) * K) with (B2R (reactions64 c0) * K * B2R (multiplicity64 c0)) by ring. apply close_mult_r; [apply Mo|].
        apply (close_trans n j _ (exact_sum (strength64 c0) * K)); [apply close_mult_r; [lra|exact Cr0]|now apply close_sym]. }
    destruct (follows_cells _ _ _ _ Fo) as [Ec El]. rewrite map_length in El.
    assert (Sz : size ds = (cells_of cs + length cs)%nat) by (unfold size; lia).
    assert (Len : forall c, In c cs -> (length (strength64 c) + 1 <= cells_of cs + length cs)%nat).
    { clear. induction cs as [|x cs IH]; [intros c []|]. intros c [->|H]; cbn [cells_of fold_right length]; fold (cells_of cs); [lia|]. specialize (IH c H). lia. }
    assert (Small : INR (size ds + 2 * j + 1) <= bp 44).
    { rewrite !plus_INR, mult_INR. change (INR 2) with 2. change (INR 1) with 1. assert (1 <= bp 40) by (change 1 with (bp 0); apply bpow_le; lia). pose proof (bpow_le radix2 39 40 ltac:(lia)). apply Rle_trans with (bp 3 * bp 40); [change (bp 3) with 8; lra|]. rewrite bp_mul. apply bpow_le. lia. }
    split.
    { apply Forall_forall. intros c Hc. destruct (Each c Hc) as (_ & C1 & C2). specialize (Len c Hc). split; (apply close_within; [apply enough; eapply Rle_trans; [|exact Small]; apply le_INR; lia|assumption]). }
    set (n := (cells_of cs + 2 * j + 1)%nat).
    assert (Sum : Forall fin_nn (map neutrons64 cs) /\ close n (exact_sum (map neutrons64 cs)) (exact_rate cs)).
    { assert (Len' : forall c, In c cs -> (length (strength64 c) <= cells_of cs)%nat).
      { clear. induction cs as [|x cs IH]; [intros c []|]. intros c [->|H]; cbn [cells_of fold_right]; fold (cells_of cs); [lia|]. specialize (IH c H). lia. }
      assert (Each' : forall c, In c cs -> fin_nn (neutrons64 c) /\ close n (B2R (neutrons64 c)) (exact_sum (strength64 c) * B2R (multiplicity64 c))).
      { intros c Hc. destruct (Each c Hc) as (A & _ & B). split; [exact A|]. eapply close_weaken; [|exact B]. specialize (Len' c Hc). unfold n. lia. }
      clearbody n. clear - Each'. induction cs as [|c cs IH]; cbn [map].
      - split; [constructor|]. apply (close_weaken 0); [lia|]. apply close_refl. cbn. lra.
      - destruct IH as [I1 I2]; [intros; apply Each'; now right|]. destruct (Each' c (or_introl eq_refl)) as [A B]. split; [now constructor|].
        change (exact_sum (neutrons64 c :: map neutrons64 cs)) with (B2R (neutrons64 c) + exact_sum (map neutrons64 cs)). cbn [exact_rate fold_right]. fold (exact_rate cs). now apply close_plus. }
    destruct Sum as [N1 N2].
    assert (Bound : exact_rate cs <= bp 260).
    { assert (Mo : Forall (fun c => 0 <= B2R (multiplicity64 c) <= bp 10) cs).
      { apply Forall_forall. intros c Hc. assert (X : exists c0, In c0 (map new64 ds) /\ follows j K c0 c) by (clear - Fo Hc; induction Fo as [|c0 c' cs0 cs H _ IH]; [destruct Hc|]; destruct Hc as [->|Hc]; [exists c0; split; [now left|exact H]|destruct (IH Hc) as (x & Hx & Hf); exists x; split; [now right|exact Hf]]).
        destruct X as (c0 & H0 & Hf). rewrite Forall_forall in F. destruct (F c0 H0) as (_ & (_ & Mo) & _). destruct Hf as (_ & -> & _). pose proof (bp_pos 10). destruct Mo as [->|Mo]; lra. }
      assert (G : exact_rate cs <= INR (cells_of cs) * bp 210).
      { clear - R Mo. induction R as [|c cs [Hc _] _ IH]; [cbn; lra|]. inversion Mo; subst. cbn [exact_rate fold_right cells_of]. fold (exact_rate cs) (cells_of cs). rewrite plus_INR. specialize (IH H2). pose proof (sum_bound _ Hc) as Q. pose proof (exact_sum_nonneg _ (in_range_nn _ Hc)).
        assert (exact_sum (strength64 c) * B2R (multiplicity64 c) <= INR (length (strength64 c)) * bp 200 * bp 10) by (apply Rmult_le_compat; lra). rewrite Rmult_assoc, bp_mul in H0. change (bp (200 + 10)) with (bp 210) in H0. lra. }
      apply Rle_trans with (1 := G). replace (bp 260) with (bp 50 * bp 210) by apply bp_mul. apply Rmult_le_compat_r; [left; apply bp_pos|]. pose proof (bpow_le radix2 39 50 ltac:(lia)). apply Rle_trans with (bp 39); [|lra]. eapply Rle_trans; [|exact S]. apply le_INR. lia. }
    assert (Wn : wp n <= bp 1) by (apply wp_2, enough; eapply Rle_trans; [|exact Small]; apply le_INR; unfold n; lia).
    destruct (sums_close (map neutrons64 cs) (source_rate64 cs) (pysum64_sums _) N1) as (G1 & G2 & _).
    { rewrite map_length. assert (W2 : wp (length cs) <= bp 1) by (apply wp_2, enough; eapply Rle_trans; [|exact Small]; apply le_INR; lia). destruct (close_le _ _ _ N2 Wn) as [Q _]. pose proof (exact_sum_nonneg _ N1).
      apply Rle_trans with (bp 1 * bp 260 * bp 1); [|rewrite !bp_mul; apply bpow_le; lia]. apply Rmult_le_compat; [lra|left; apply wp_pos| |exact W2]. apply Rle_trans with (1 := Q). apply Rmult_le_compat_l; [left; apply bp_pos|exact Bound]. }
    split; [exact G1|]. split; [|split; [exact Small|exact Bound]]. rewrite map_length in G2. replace (size ds + 2 * j + 1)%nat with (length cs + n)%nat by (unfold n; lia). eapply close_trans; [exact G2|exact N2].
  Qed.
  Lemma rates_match_strengths Ps : Forall (between (-100) 100) Ps -> INR (length Ps) <= two 40 ->
    exists cs, normalise_all64 npsum (map new64 ds) Ps = Ok cs /\
      Forall (fun c => let n := (length (strength64 c) + 2 * length Ps)%nat in
        within n (B2R (reactions64 c)) (exact_sum (strength64 c)) /\
        within (n + 1) (B2R (neutrons64 c)) (exact_sum (strength64 c) * B2R (multiplicity64 c))) cs /\
      is_finite (source_rate64 cs) = true /\ within (size ds + 2 * length Ps + 1) (B2R (source_rate64 cs)) (exact_rate cs).
  Proof.
    intros HP L. destruct (rates_close Ps HP L) as (K & cs & E & _ & F & G & C & S & _). exists cs. split; [exact E|]. split; [exact F|]. split; [apply G|]. apply close_within; [now apply enough|exact C].
  Qed.
End C83.

(** After any number of normalisations the fusion power the source reports is the last one asked for, up to about two rounding errors per cell and
    channel, and every number is finite. *)
Theorem C83_reported_power npsum ds Ps P : (forall l, sums l (npsum l)) -> ordinary_source ds ->
  Forall (between (-100) 100) (Ps ++ [P]) -> INR (length (Ps ++ [P])) <= two 40 ->
  exists cs, normalise_all64 npsum (map new64 ds) (Ps ++ [P]) = Ok cs /\
    is_finite (total_power64 npsum cs) = true /\ within (2 * size ds + 4) (B2R (total_power64 npsum cs)) (B2R P).
Proof. intros S (A & B & C). now apply reported_power. Qed.
(** One factor for the whole source: after k normalisations every strength, reaction rate and neutron rate is the original one times the same number,
    up to k rounding errors; energies and multiplicities are untouched. *)
Theorem C83_one_factor npsum ds Ps : (forall l, sums l (npsum l)) -> ordinary_source ds ->
  Forall (between (-100) 100) Ps -> INR (length Ps) <= two 40 ->
  exists cs K, normalise_all64 npsum (map new64 ds) Ps = Ok cs /\ 0 < K /\
    Forall2 (fun c0 c => energy64 c = energy64 c0 /\ multiplicity64 c = multiplicity64 c0 /\
      Forall2 (fun s0 s => is_finite s = true /\ within (length Ps) (B2R s) (B2R s0 * K)) (strength64 c0) (strength64 c) /\
      is_finite (reactions64 c) = true /\ within (length Ps) (B2R (reactions64 c)) (B2R (reactions64 c0) * K) /\
      is_finite (neutrons64 c) = true /\ within (length Ps) (B2R (neutrons64 c)) (B2R (neutrons64 c0) * K)) (map new64 ds) cs.
Proof. intros S (A & B & C). now apply one_factor. Qed.
(** The stored rates still belong to the stored strengths. *)
Theorem C83_rates_match_strengths npsum ds Ps : (forall l, sums l (npsum l)) -> ordinary_source ds ->
  Forall (between (-100) 100) Ps -> INR (length Ps) <= two 40 ->
  exists cs, normalise_all64 npsum (map new64 ds) Ps = Ok cs /\
    Forall (fun c => let n := (length (strength64 c) + 2 * length Ps)%nat in
      within n (B2R (reactions64 c)) (exact_sum (strength64 c)) /\
      within (n + 1) (B2R (neutrons64 c)) (exact_sum (strength64 c) * B2R (multiplicity64 c))) cs /\
    is_finite (source_rate64 cs) = true /\ within (size ds + 2 * length Ps + 1) (B2R (source_rate64 cs)) (exact_rate cs).
Proof. intros S (A & B & C). now apply rates_match_strengths. Qed.
Print Assumptions C83_reported_power.
Print Assumptions C83_one_factor.
Print Assumptions C83_rates_match_strengths.

(** ** A source without any reactions *)
Lemma zero_form x : is_zero x -> exists b, x = B754_zero b.
Proof.
  intros [F Z]. destruct x as [b|b| |b m e H]; try discriminate; [now exists b|]. exfalso. cbn in Z. apply eq_0_F2R in Z. destruct b; discriminate.
Qed.
Lemma zeros_sum l x : sums l x -> Forall is_zero l -> exists b, x = B754_zero b.
Proof.
  induction 1 as [z F Z|x|l l1 l2 a b P S1 IH1 S2 IH2]; intro H.
  - apply zero_form. now split.
  - inversion H; subst. now apply zero_form.
  - pose proof (Permutation_Forall P H) as H12. apply Forall_app in H12. destruct H12 as [H1 H2]. destruct (IH1 H1) as [x ->]. destruct (IH2 H2) as [y ->]. destruct x, y; eexists; reflexivity.
Qed.

(** If every cell of every channel has strength zero, normalising to a positive power turns every strength and rate into not-a-number. *)
Theorem C83_zero_source npsum ds P : (forall l, sums l (npsum l)) -> ds <> [] ->
  Forall (fun d => is_finite (fst (fst d)) = true /\ is_finite (snd (fst d)) = true /\ Forall is_zero (snd d)) ds -> is_finite P = true -> 0 < B2R P ->
  exists cs, normalise64 npsum (map new64 ds) P = Ok cs /\ Forall (fun c => Forall (fun s => is_nan s = true) (strength64 c) /\ is_nan (reactions64 c) = true /\ is_nan (neutrons64 c) = true) cs.
Proof.
  intros Hs Ne H FP PP.
  assert (T : exists b, total_power64 npsum (map new64 ds) = B754_zero b).
  { unfold total_power64. apply (zeros_sum _ _ (pysum64_sums _)). rewrite map_map. clear Ne. induction H as [|d ds (FE & _ & Z) _ IH]; cbn [map]; constructor; [|exact IH].
    destruct (zeros_sum _ _ (Hs (map (fun s => fmul s (energy64 (new64 d))) (strength64 (new64 d))))) as [b ->]; [|split; reflexivity].
    unfold new64. cbn [new_channel64 strength64 energy64]. clear - FE Z. destruct d as [[E m] l0]. cbn [fst snd] in *. induction Z as [|s l Z _ IH]; cbn [map]; constructor; [|exact IH]. destruct (zero_form s Z) as [b ->]. destruct E as [x|x| |x mm e h]; try discriminate FE; destruct b, x; split; reflexivity. }
  destruct T as [b T]. unfold normalise64. destruct (map new64 ds) as [|c0 l0] eqn:Em; [destruct ds; [contradiction|discriminate]|]. eexists. split; [reflexivity|]. rewrite T. rewrite <- Em.
  assert (I : exists x, fdiv P (B754_zero b) = B754_infinity x). { destruct P as [p|p| |p m e h]; try discriminate FP; [cbn in PP; lra|]. destruct p, b; eexists; reflexivity. }
  destruct I as [x ->].
  assert (Q : forall y, fmul (B754_zero y) (B754_infinity x) = B754_nan) by (intro y; destruct x, y; reflexivity).
  clear - H Q. induction H as [|[[E M] l0] ds (FE & FM & Z) _ IH]; cbn [map]; constructor; [|exact IH]. cbn [fst snd] in *.
  unfold new64, rescale64. cbn [new_channel64 strength64 reactions64 neutrons64 fst snd]. destruct (zeros_sum _ _ (pysum64_sums l0) Z) as [y Ey]. rewrite Ey.
  split; [|split].
  - clear - Z Q. induction Z as [|s l Z _ IH]; cbn [map]; constructor; [|exact IH]. destruct (zero_form s Z) as [y ->]. now rewrite Q.
  - now rewrite Q.
  - assert (X : exists z, fmul (B754_zero y) M = B754_zero z) by (destruct M as [v|v| |v m e h]; try discriminate FM; destruct y, v; eexists; reflexivity). destruct X as [z ->]. now rewrite Q.
Qed.
Print Assumptions C83_zero_source.

(** Without channels the built-in sum returns the integer 0 and Python raises. *)
Theorem C83_no_channel npsum P Ps : normalise_all64 npsum (map new64 []) (P :: Ps) = Err EZeroDivision.
Proof. reflexivity. Qed.
Print Assumptions C83_no_channel.

(** ** Concrete sources *)
Definition lit (m e : Z) : f64 := binary_normalize 53 1024 Hprec64 Hmax64 mode_NE m e false.
(** The D-T energy, 3e18 reactions per second in a cell, 1 GW. *)
Definition E_DT : f64 := lit 6977030061412403 (-91).
Definition s1 : f64 := lit 5859375000000000 9.
Definition GW : f64 := lit 1000000000 0.
(** A D-T channel with three cells, one of them outside the burning plasma, and a channel without neutrons. *)
Definition ex_ds : list data := [(E_DT, lit 1 0, [s1; lit 0 0; lit 7 50]); (lit 5 (-42), lit 0 0, [lit 3 40; lit 0 0; lit 1 41])].

Lemma lit_value (x : f64) p e : B2SF x = S754_finite false p e -> is_finite x = true /\ B2R x = IZR (Zpos p) * bp e.
Proof. destruct x as [b|b| |b m e' h]; try discriminate. intros [= -> -> ->]. split; reflexivity. Qed.
Lemma lit_between (x : f64) p e a b : B2SF x = S754_finite false p e -> (2 ^ 52 <= Zpos p <= 2 ^ 53)%Z -> (a <= 52 + e)%Z -> (53 + e <= b)%Z -> between a b x.
Proof.
  intros H [L U] A B. destruct (lit_value x p e H) as [F V]. split; [exact F|]. rewrite V, !two_bpow. pose proof (bp_pos e).
  assert (E52 : bp 52 = IZR (2 ^ 52)) by reflexivity. assert (E53 : bp 53 = IZR (2 ^ 53)) by reflexivity. apply IZR_le in L, U. split.
  - apply Rle_trans with (bp (52 + e)); [now apply bpow_le|]. rewrite <- bp_mul. apply Rmult_le_compat_r; lra.
  - apply Rle_trans with (bp (53 + e)); [|now apply bpow_le]. rewrite <- (bp_mul 53 e). apply Rmult_le_compat_r; lra.
Qed.
Ltac lit_range := eapply lit_between; [vm_compute; reflexivity|split; vm_compute; discriminate|vm_compute; discriminate|vm_compute; discriminate].
Lemma lit_0 : is_zero (lit 0 0).
Proof. split; reflexivity. Qed.
Lemma lit_1 : is_finite (lit 1 0) = true /\ B2R (lit 1 0) = 1.
Proof. destruct (lit_value (lit 1 0) 4503599627370496 (-52)) as [A B]; [vm_compute; reflexivity|]. split; [exact A|]. rewrite B. change 4503599627370496%Z with (2 ^ 52)%Z. change (IZR (2 ^ 52)) with (bp 52). rewrite bp_mul. reflexivity. Qed.
Lemma one_ok : is_finite (lit 1 0) = true /\ (B2R (lit 1 0) = 0 \/ 1 <= B2R (lit 1 0) <= two 10).
Proof. destruct lit_1 as [A B]. split; [exact A|right]. rewrite B, two_bpow. split; [lra|]. change 1 with (bp 0). apply bpow_le. lia. Qed.
Lemma ok_strength s : between (-300) 150 s -> is_finite s = true /\ (B2R s = 0 \/ two (-300) <= B2R s <= two 150).
Proof. intros [A B]. split; [exact A|now right]. Qed.
Lemma ok_zero : is_finite (lit 0 0) = true /\ (B2R (lit 0 0) = 0 \/ two (-300) <= B2R (lit 0 0) <= two 150).
Proof. destruct lit_0 as [A B]. split; [exact A|now left]. Qed.

(** The reported power is in general not exactly the one asked for: a source with one cell asked for 1 GW reports one unit in the last place less. *)
Theorem C83_exact_power_refuted :
  ~ (forall ds P cs, Forall ordinary ds -> between (-100) 100 P -> normalise64 pysum64 (map new64 ds) P = Ok cs -> Beqb (total_power64 pysum64 cs) P = true).
Proof.
  intro H. specialize (H [(E_DT, lit 1 0, [s1])] GW [rescale64 (fdiv GW (total_power64 pysum64 [new64 (E_DT, lit 1 0, [s1])])) (new64 (E_DT, lit 1 0, [s1]))]).
  assert (O : Forall ordinary [(E_DT, lit 1 0, [s1])]).
  { constructor; [|constructor]. split; [cbn [fst]; lit_range|]. split; [exact one_ok|]. constructor; [|constructor]. apply ok_strength. lit_range. }
  specialize (H O ltac:(lit_range) eq_refl). vm_compute in H. discriminate.
Qed.
Print Assumptions C83_exact_power_refuted.

(** The hypotheses are met by [ex_ds], normalised to 1 GW, then 3 W, then 2 GW. *)
Example C83_hypotheses : ordinary_source ex_ds /\
  Forall (between (-100) 100) ([GW; lit 3 0] ++ [lit 2000000000 0]) /\ INR (length ([GW; lit 3 0] ++ [lit 2000000000 0])) <= two 40.
Proof.
  assert (S1 : between (-300) 150 s1) by lit_range.
  split; [split; [|split]|split].
  - constructor; [|constructor; [|constructor]].
    + split; [cbn [fst]; lit_range|]. split; [exact one_ok|]. constructor; [now apply ok_strength|]. constructor; [exact ok_zero|]. constructor; [|constructor]. apply ok_strength. lit_range.
    + split; [cbn [fst]; lit_range|]. split; [split; [reflexivity|left; reflexivity]|]. constructor; [apply ok_strength; lit_range|]. constructor; [exact ok_zero|]. constructor; [|constructor]. apply ok_strength. lit_range.
  - exists (E_DT, lit 1 0, [s1; lit 0 0; lit 7 50]), s1. split; [now left|]. split; [now left|]. destruct S1 as [_ [S1 _]]. rewrite two_bpow in S1. pose proof (bp_pos (-300)). lra.
  - rewrite two_bpow. change (size ex_ds) with 8%nat. apply Rle_trans with (bp 3); [change (bp 3) with 8; cbn; lra|apply bpow_le; lia].
  - cbn [app]. constructor; [lit_range|]. constructor; [lit_range|]. constructor; [lit_range|constructor].
  - rewrite two_bpow. change (length ([GW; lit 3 0] ++ [lit 2000000000 0])) with 3%nat. apply Rle_trans with (bp 2); [change (bp 2) with 4; cbn; lra|apply bpow_le; lia].
Qed.
Example C83_zero_hypotheses : Forall (fun d : data => is_finite (fst (fst d)) = true /\ is_finite (snd (fst d)) = true /\ Forall is_zero (snd d)) [(E_DT, lit 1 0, [lit 0 0; lit 0 0])].
Proof. repeat constructor. Qed.
(** np.sum can be the plain sum. *)
Example C83_npsum : forall l, sums l (pysum64 l).
Proof. exact pysum64_sums. Qed.
