(** C100: the OpenMC source in the arithmetic the computer uses (binary64). *)
From Coq Require Import ZArith Bool Reals Lra Lia List Permutation.
From Flocq Require Import Core.Core Mult_error IEEE754.BinarySingleNaN.
From Verif Require Import Base Reactions SpecReactions SpecSource FloatComp FloatCompProofs FloatCompAcc FloatSource SpecFloatSource FloatSourceProofs P_FloatSource
  FloatSpace FloatSpaceProofs P_FloatMain FloatOpenMC SpecFloatOpenMC.
Local Open Scope R_scope.
Local Notation bp := (bpow radix2).
Local Instance p53om : Prec_gt_0 53 := eq_refl.

Lemma count_eq r : num_neutrons r = neutrons r.
Proof. destruct r; reflexivity. Qed.
Lemma neutron_count r : let m := f64_of_Z (Z.of_nat (num_neutrons r)) in fin_nn m /\ B2R m = INR (neutrons r).
Proof.
  intro m. destruct (f64_of_Z_exact (Z.of_nat (num_neutrons r))) as [F V]; [destruct r; cbn; lia|]. fold m in F, V. rewrite <- INR_IZR_INZ, count_eq in V.
  split; [|exact V]. split; [exact F|]. rewrite V. apply pos_INR.
Qed.
Lemma few_neutrons r : neutrons r = 0%nat /\ is_neutronic r = false \/ 1 <= INR (neutrons r) <= 2 /\ is_neutronic r = true.
Proof. destruct r; cbn; [right|right|right|left|left]; (split; [lra || reflexivity|reflexivity]). Qed.

Lemma per_reaction_impl {S S'} i (g : reaction * list f64 -> S -> Prop) (g' : reaction * list f64 -> S' -> Prop) (f : S -> S') l xs :
  (forall p x, g p x -> g' p (f x)) -> one_per_emitting_reaction i g l xs -> one_per_emitting_reaction i g' l (map f xs).
Proof. intros H P. induction P; cbn [map]; [constructor 1|constructor 2; auto|constructor 3; auto]. Qed.

Lemma per_reaction_weaken {S} i (g g' : reaction * list f64 -> S -> Prop) l xs :
  (forall p x, g p x -> g' p x) -> one_per_emitting_reaction i g l xs -> one_per_emitting_reaction i g' l xs.
Proof. intros H P. induction P; [constructor 1|constructor 2; auto|constructor 3; auto]. Qed.

(** ** One cell *)
Section Cell.
  Context {D : Type}.
  Variable spectrum : reaction -> f64 -> D.
  Variable i : nat.
  Variable T : f64.

  Lemma emitted_by_nn p : Forall in_range (snd p) -> 0 <= emitted_by i p.
  Proof.
    intro H. apply Rmult_le_pos; [apply pos_INR|]. destruct (nth_in_or_default i (snd p) f0) as [I| -> ]; [|cbn; lra]. rewrite Forall_forall in H. apply (H _ I).
  Qed.
  Lemma emitted_nn st : Forall (fun p => Forall in_range (snd p)) st -> 0 <= emitted st i.
  Proof. induction 1 as [|p st H _ IH]; cbn [emitted fold_right]; [lra|]. fold (emitted st i). pose proof (emitted_by_nn p H). lra. Qed.

  Lemma weight p x : nth_error (snd p) i = Some x -> in_range x -> is_neutronic (fst p) = true ->
    let w := fmul x (f64_of_Z (Z.of_nat (num_neutrons (fst p)))) in
    fin_nn w /\ close 1 (B2R w) (emitted_by i p) /\ (Bltb f0 w = true /\ bp (-571) <= B2R w /\ bp (-570) <= emitted_by i p <= bp 201 \/ Bltb f0 w = false /\ emitted_by i p = 0).
  Proof.
    intros E [N V] Hne w. destruct (neutron_count (fst p)) as [Nm Vm]. destruct (few_neutrons (fst p)) as [[_ C]|[M _]]; [congruence|].
    assert (Ee : emitted_by i p = B2R x * INR (neutrons (fst p))) by (unfold emitted_by; rewrite (nth_error_nth _ _ _ E); ring).
    assert (V' : B2R x * INR (neutrons (fst p)) = 0 \/ bp (-570) <= B2R x * INR (neutrons (fst p)) <= bp 201).
    { destruct V as [->|V]; [left; ring|right]. pose proof (bp_pos (-570)). replace (bp 201) with (bp 200 * bp 1) by apply bp_mul. rewrite bp_1. split; nra. }
    assert (No : normal (B2R x * B2R (f64_of_Z (Z.of_nat (num_neutrons (fst p)))))). { rewrite Vm. destruct V' as [->|V']; [now left|]. apply (normal_of _ (-570) 201); [exact V'|lia|lia]. }
    destruct (fmul_close _ _ N Nm No) as [Nw Cw]. fold w in Nw, Cw. rewrite Vm in Cw. rewrite <- Ee in Cw, V'. split; [exact Nw|]. split; [exact Cw|].
    assert (B : Bltb f0 w = Rlt_bool 0 (B2R w)). { rewrite Bltb_correct; [reflexivity|reflexivity|apply Nw]. }
    destruct V' as [Z|V']; [right|left].
    - split; [|exact Z]. rewrite B. apply Rlt_bool_false. rewrite Z in Cw. apply close_0 in Cw. rewrite Cw. lra.
    - assert (W1 : wp 1 <= bp 1) by (apply wp_2; change (INR 1) with 1; pose proof uu_small; lra). destruct (close_le _ _ _ Cw W1) as [_ Q]. rewrite bp_1 in Q.
      assert (L : bp (-571) <= B2R w). { replace (bp (-570)) with (2 * bp (-571)) in V' by (rewrite <- bp_1, bp_mul; reflexivity). lra. }
      split; [|split; [exact L|exact V']]. rewrite B. apply Rlt_bool_true. pose proof (bp_pos (-571)). lra.
  Qed.

  Lemma channels_ok st : Forall (fun p => (i < length (snd p))%nat /\ Forall in_range (snd p)) st ->
    exists ws ds, ring_channels64 spectrum i T (n_strength64 st) = Ok (ws, ds) /\
      Forall fin_nn ws /\ (length ws <= length st)%nat /\ close 1 (exact_sum ws) (emitted st i) /\
      (ws = [] /\ emitted st i = 0 \/ bp (-570) <= emitted st i) /\ emitted st i <= INR (length st) * bp 201 /\
      one_per_emitting_reaction i (fun p w => In w ws /\ close 1 (B2R w) (emitted_by i p) /\ bp (-571) <= B2R w) st ws /\
      one_per_emitting_reaction i (fun p d => d = spectrum (fst p) T) st ds.
  Proof.
    induction 1 as [|[r s] st [Li Hr] Hst IH].
    - exists [], []. split; [reflexivity|]. split; [constructor|]. split; [reflexivity|]. cbn [exact_sum emitted fold_right length INR]. split; [apply (close_weaken 0); [lia|apply close_refl; lra]|].
      split; [left; split; reflexivity|]. split; [lra|]. split; constructor.
    - destruct IH as (ws & ds & E & N & L & C & Z & U & P & Q). cbn [emitted fold_right]. fold (emitted st i). cbn [snd] in Li, Hr. assert (En : 0 <= emitted st i). { apply emitted_nn. eapply Forall_impl; [|exact Hst]. intros p [_ H]; exact H. }
      assert (Lg : emitted st i <= INR (length ((r, s) :: st)) * bp 201). { eapply Rle_trans; [exact U|]. apply Rmult_le_compat_r; [left; apply bp_pos|]. apply le_INR. cbn. lia. }
      unfold n_strength64. cbn [filter fst snd]. destruct (is_neutronic r) eqn:Nr.
      + cbn [map]. fold (n_strength64 st). cbn [ring_channels64 fst snd]. destruct (nth_error s i) as [x|] eqn:Ex; [|apply nth_error_None in Ex; lia].
        rewrite nth_error_map, Ex. cbn [option_map bind]. rewrite E. cbn [bind fst snd]. assert (Rx : in_range x) by (rewrite Forall_forall in Hr; apply Hr; eapply nth_error_In; exact Ex).
        destruct (weight (r, s) x Ex Rx Nr) as (Nw & Cw & V). cbn [fst snd] in *. set (w := fmul x (f64_of_Z (Z.of_nat (num_neutrons r)))) in *. destruct V as [(B & Lw & V)|[B V]]; rewrite B.
        * exists (w :: ws), (spectrum r T :: ds). split; [reflexivity|]. split; [now constructor|]. split; [cbn; lia|]. split.
          { change (exact_sum (w :: ws)) with (B2R w + exact_sum ws). now apply close_plus. }
          split; [right; lra|]. split; [cbn [length]; rewrite S_INR; lra|]. split; constructor 3; auto; try (pose proof (bp_pos (-570)); lra).
          -- split; [now left|]. split; assumption.
          -- apply (per_reaction_weaken i _ _ st ws) with (2 := P). cbn beta. intros p w' (I1 & I2). split; [right; exact I1|exact I2].
        * exists ws, ds. rewrite V, Rplus_0_l. split; [reflexivity|]. split; [exact N|]. split; [cbn; lia|]. split; [exact C|]. split; [exact Z|]. split; [exact Lg|]. split; constructor 2; auto.
      + fold (n_strength64 st). assert (V : emitted_by i (r, s) = 0). { unfold emitted_by. cbn [fst]. destruct (few_neutrons r) as [[-> _]|[_ C']]; [cbn; ring|congruence]. }
        exists ws, ds. rewrite V, Rplus_0_l. split; [exact E|]. split; [exact N|]. split; [cbn; lia|]. split; [exact C|]. split; [exact Z|]. split; [exact Lg|]. split; constructor 2; auto.
  Qed.

  (** The source rate: m roundings from the total. *)
  Variables (st : list (reaction * list f64)) (q : f64) (m : nat) (tot : R).
  Hypothesis Hst : Forall (fun p => (i < length (snd p))%nat /\ Forall in_range (snd p)) st.
  Hypothesis Hk : INR (length st) <= bp 40.
  Hypothesis Hm : INR m <= bp 44.
  Hypothesis Nq : fin_nn q.
  Hypothesis Cq : close m (B2R q) tot.
  Hypothesis Htot : emitted st i <= tot <= bp 260.

  Definition good_ring (r z h : f64) (s : ring64 D) : Prop :=
    fin_nn (ring_strength s) /\ close (length st + m + 2) (B2R (ring_strength s)) (emitted st i / tot) /\
    one_per_emitting_reaction i (fun p x => fin_nn x /\ close (length st + 3) (B2R x) (emitted_by i p / emitted st i)) st (mixture_p s) /\
    one_per_emitting_reaction i (fun p d => d = spectrum (fst p) T) st (mixture_d s) /\
    (exists p d x, make_openmc_ring_source64 r z h p d x = Some s).

  Lemma small_40 n : INR n <= bp 44 -> wp n <= bp 1.
  Proof. intro H. apply wp_2, enough. exact H. Qed.

  Lemma ring_ok r z h : exists o, one_ring64 spectrum h (n_strength64 st) q i (r, z, T) = Ok o /\
    match o with None => emitted st i = 0 | Some s => 0 < emitted st i /\ good_ring r z h s end.
  Proof.
    destruct (channels_ok st Hst) as (ws & ds & E & N & L & C & Z & U & P & Q). unfold one_ring64. rewrite E. cbn [bind fst snd]. eexists. split; [reflexivity|].
    unfold make_openmc_ring_source64. destruct Z as [[-> Z]|Z].
    - assert (B : Bltb f0 (fdiv (pysum64 []) q) = false).
      { change (pysum64 []) with f0. destruct Nq as [Fq _]. destruct q as [b|b| |b mm e hh]; try discriminate Fq; destruct b; reflexivity. }
      rewrite B. exact Z.
    - pose proof (bp_pos (-570)) as P570. assert (Pe : 0 < emitted st i) by lra. assert (Pt : 0 < tot) by lra.
      assert (L40 : bp 40 <= bp 44) by (apply bpow_le; lia).
      assert (Lw : INR (length ws) <= bp 40) by (eapply Rle_trans; [apply le_INR; exact L|exact Hk]).
      assert (Ub : emitted st i <= bp 241). { eapply Rle_trans; [exact U|]. replace (bp 241) with (bp 40 * bp 201) by apply bp_mul. apply Rmult_le_compat_r; [left; apply bp_pos|exact Hk]. }
      assert (W1 : wp 1 <= bp 1) by (apply wp_2; change (INR 1) with 1; pose proof uu_small; lra).
      destruct (close_le _ _ _ C W1) as [C1 C2]. rewrite bp_1 in C1, C2.
      destruct (sums_close ws (pysum64 ws) (pysum64_sums _) N) as (Nl & Cl & _).
      { apply Rle_trans with (bp 242 * bp 1); [|rewrite bp_mul; apply bpow_le; lia]. apply Rmult_le_compat; [now apply exact_sum_nonneg|left; apply wp_pos| |apply small_40; lra]. replace (bp 242) with (2 * bp 241) by (rewrite <- bp_1, bp_mul; reflexivity). lra. }
      set (local := pysum64 ws) in *. assert (Cl' : close (length st + 1) (B2R local) (emitted st i)). { eapply close_trans; [|exact C]. eapply close_weaken; [exact L|exact Cl]. }
      assert (Wk : wp (length st + 1) <= bp 1). { apply wp_2, enough. rewrite plus_INR. change (INR 1) with 1. change 44%Z with (40 + 4)%Z. rewrite <- bp_mul. change (bp 4) with 16. assert (1 <= bp 40) by (change 1 with (bp 0); apply bpow_le; lia). lra. }
      destruct (close_le _ _ _ Cl' Wk) as [D1 D2]. rewrite bp_1 in D1, D2.
      assert (Pl : 0 < B2R local) by lra.
      destruct (close_le _ _ _ Cq (small_40 m Hm)) as [Q1 Q2]. rewrite bp_1 in Q1, Q2. assert (Pq : 0 < B2R q) by lra.
      assert (Low : bp (-571) <= B2R local <= bp 242). { replace (bp (-570)) with (2 * bp (-571)) in Z by (rewrite <- bp_1, bp_mul; reflexivity). replace (bp 242) with (2 * bp 241) by (rewrite <- bp_1, bp_mul; reflexivity). lra. }
      assert (Qb : bp (-571) <= B2R q <= bp 261). { replace (bp (-570)) with (2 * bp (-571)) in Z by (rewrite <- bp_1, bp_mul; reflexivity). replace (bp 261) with (2 * bp 260) by (rewrite <- bp_1, bp_mul; reflexivity). lra. }
      assert (Rt : bp (-832) <= B2R local / B2R q <= bp 813).
      { change (-832)%Z with (-571 - 261)%Z. change 813%Z with (242 - -571)%Z. rewrite <- !bp_div. unfold Rdiv. pose proof (bp_pos (-571)). split; apply Rmult_le_compat; try lra; try (left; apply Rinv_0_lt_compat; try apply bp_pos; lra); try (apply Rinv_le_contravar; lra). }
      destruct (fdiv_close local q Nl Nq Pq (normal_of _ _ _ Rt ltac:(lia) ltac:(lia))) as [Ns Cs]. set (str := fdiv local q) in *.
      assert (Ps : 0 < B2R str). { eapply close_pos; [exact Cs|]. apply Rdiv_lt_0_compat; lra. }
      assert (B : Bltb f0 str = true). { rewrite Bltb_correct; [|reflexivity|apply Ns]. apply Rlt_bool_true. exact Ps. }
      rewrite B. split; [exact Pe|]. split; [exact Ns|]. cbn [ring_strength mixture_p mixture_d]. split; [|split; [|split; [exact Q|]]].
      + replace (length st + m + 2)%nat with (1 + (length st + 1 + m))%nat by lia. eapply close_trans; [exact Cs|]. now apply close_div.
      + assert (W : forall w, In w ws -> bp (-571) <= B2R w -> forall p, close 1 (B2R w) (emitted_by i p) -> fin_nn (fdiv w local) /\ close (length st + 3) (B2R (fdiv w local)) (emitted_by i p / emitted st i)).
        { intros w Iw Bw p Cw. assert (Nw : fin_nn w) by (rewrite Forall_forall in N; now apply N). pose proof (in_le_sum ws w N Iw) as Sw.
          assert (Rw : bp (-813) <= B2R w / B2R local <= bp 813).
          { change (-813)%Z with (-571 - 242)%Z. change 813%Z with (242 - -571)%Z. rewrite <- !bp_div. assert (B2R w <= bp 242) by (replace (bp 242) with (2 * bp 241) by (rewrite <- bp_1, bp_mul; reflexivity); lra). pose proof (bp_pos (-571)). unfold Rdiv. split; apply Rmult_le_compat; try lra; try (left; apply Rinv_0_lt_compat; try apply bp_pos; lra); try (apply Rinv_le_contravar; lra). }
          destruct (fdiv_close w local Nw Nl Pl (normal_of _ _ _ Rw ltac:(lia) ltac:(lia))) as [Nd Cd]. split; [exact Nd|]. replace (length st + 3)%nat with (1 + (1 + (length st + 1)))%nat by lia. eapply close_trans; [exact Cd|]. now apply close_div. }
        eapply per_reaction_impl; [|exact P]. cbn beta. intros p w (I1 & I2 & I3). now apply W.
      + exists (map (fun w => fdiv w local) ws), ds, str. unfold make_openmc_ring_source64. rewrite B. reflexivity.
  Qed.
End Cell.

(** ** All cells *)
Lemma all_emitted_split st n : Forall (fun p => length (snd p) = n) st -> all_emitted st n = fold_right (fun p e => INR (neutrons (fst p)) * exact_sum (snd p) + e) 0 st.
Proof.
  assert (Row : forall p l pre, snd p = pre ++ l -> fold_right (fun i e => emitted_by i p + e) 0 (seq (length pre) (length l)) = INR (neutrons (fst p)) * exact_sum l).
  { intros p l. induction l as [|x l IH]; intros pre Hs; cbn [length seq fold_right exact_sum]; [ring|]. fold (exact_sum l). specialize (IH (pre ++ [x])). rewrite app_length in IH. cbn [length] in IH. rewrite Nat.add_1_r in IH. rewrite IH by (rewrite <- app_assoc; exact Hs).
    unfold emitted_by. replace (nth (length pre) (snd p) f0) with x; [ring|]. rewrite Hs, app_nth2 by lia. now rewrite Nat.sub_diag. }
  assert (Swap : forall l st, fold_right (fun i e => emitted st i + e) 0 l = fold_right (fun p e => fold_right (fun i e => emitted_by i p + e) 0 l + e) 0 st).
  { clear. intros l st. induction st as [|p st IH]; cbn [fold_right].
    - induction l as [|a l IH]; cbn [fold_right]; [reflexivity|]. rewrite IH. cbn. ring.
    - rewrite <- IH. clear IH. induction l as [|a l IH]; cbn [fold_right]; [ring|]. rewrite IH. cbn [emitted fold_right]. fold (emitted st a). ring. }
  intro H. unfold all_emitted. rewrite Swap. induction H as [|p st Hp _ IH]; cbn [fold_right]; [reflexivity|]. rewrite IH. f_equal.
  rewrite <- Hp. exact (Row p (snd p) [] eq_refl).
Qed.

Lemma emitted_le st n i : Forall (fun p => Forall in_range (snd p)) st -> (i < n)%nat -> emitted st i <= all_emitted st n.
Proof.
  intros H Hi. unfold all_emitted. assert (I : In i (seq 0 n)) by (apply in_seq; lia). revert I. generalize (seq 0 n). induction l as [|a l IH]; [intros []|]. cbn [fold_right].
  assert (N : 0 <= fold_right (fun i e => emitted st i + e) 0 l) by (clear - H; induction l as [|b l IH]; cbn [fold_right]; [lra|]; pose proof (emitted_nn b st H); lra).
  intros [->|I]; [lra|]. specialize (IH I). pose proof (emitted_nn a st H). lra.
Qed.

Section Rings.
  Context {D : Type}.
  Variable spectrum : reaction -> f64 -> D.
  Variables (st : list (reaction * list f64)) (q : f64) (m n : nat) (h : f64).
  Hypothesis Hst : Forall (fun p => length (snd p) = n /\ Forall in_range (snd p)) st.
  Hypothesis Hk : INR (length st) <= bp 40.
  Hypothesis Hm : INR m <= bp 44.
  Hypothesis Nq : fin_nn q.
  Hypothesis Cq : close m (B2R q) (all_emitted st n).
  Hypothesis Ht : all_emitted st n <= bp 260.

  Lemma rings_ok l : forall k, (k + length l = n)%nat -> exists srcs, rings64 spectrum h (n_strength64 st) q k l = Ok srcs /\ one_per_emitting_cell st (fun i s => let c := nth (i - k) l (f0, f0, f0) in good_ring spectrum i (snd c) st m (all_emitted st n) (fst (fst c)) (snd (fst c)) h s) (seq k (length l)) srcs.
  Proof.
    induction l as [|[[r z] T] l IH]; intros k Hl; cbn [rings64 length seq].
    - exists []. split; [reflexivity|constructor].
    - cbn [length] in Hl. assert (Ha : Forall (fun p => Forall in_range (snd p)) st) by (eapply Forall_impl; [|exact Hst]; intros p [_ X]; exact X).
      destruct (ring_ok spectrum k T st q m (all_emitted st n)) with (r := r) (z := z) (h := h) as (o & E & V); auto.
      { eapply Forall_impl; [|exact Hst]. intros p [L X]. split; [lia|exact X]. }
      { split; [apply emitted_le; [exact Ha|lia]|exact Ht]. }
      destruct (IH (S k) ltac:(lia)) as (srcs & Es & P). rewrite E. cbn [bind]. rewrite Es. cbn [bind]. eexists. split; [reflexivity|].
      assert (P' : one_per_emitting_cell st (fun i s => let c := nth (i - k) ((r, z, T) :: l) (f0, f0, f0) in good_ring spectrum i (snd c) st m (all_emitted st n) (fst (fst c)) (snd (fst c)) h s) (seq (S k) (length l)) srcs).
      { assert (G : forall i, In i (seq (S k) (length l)) -> nth (i - k) ((r, z, T) :: l) (f0, f0, f0) = nth (i - S k) l (f0, f0, f0)).
        { intros i Hi. apply in_seq in Hi. replace (i - k)%nat with (S (i - S k)) by lia. reflexivity. }
        clear - P G. revert P G. generalize (seq (S k) (length l)). intros l0 P. induction P as [|i l0 srcs H P IH|i l0 s srcs H Gd P IH]; intro G; [constructor 1|constructor 2; [exact H|apply IH; intros; apply G; now right]|constructor 3; [exact H| |apply IH; intros; apply G; now right]].
        cbv zeta in *. rewrite G by now left. exact Gd. }
      destruct o as [s|]; [|now constructor 2]. destruct V as [V G]. constructor 3; [exact V| |exact P']. rewrite Nat.sub_diag. exact G.
  Qed.
End Rings.

(** ** Geometry *)
Lemma hundred : is_finite (f64_of_Z 100) = true /\ B2R (f64_of_Z 100) = 100.
Proof. exact (f64_of_Z_exact 100 ltac:(lia)). Qed.
Lemma half_side (h : f64) : between (-20) 20 h -> is_finite (fdiv h f2) = true /\ B2R (fdiv h f2) = B2R h / 2.
Proof.
  intros [F B]. rewrite !two_bpow in B. destruct (f64_of_Z_exact 2 ltac:(lia)) as [F2 V2]. fold f2 in F2, V2. pose proof (Bdiv_correct 53 1024 Hprec64 Hmax64 mode_NE h f2) as C.
  assert (Nz : B2R f2 <> 0) by (rewrite V2; lra). specialize (C Nz). rewrite fexp64 in C. change (round_mode mode_NE) with ZnearestE in C. rewrite V2 in C. pose proof (bp_pos (-20)) as P20.
  assert (G : fmt (B2R h / 2)). { replace (B2R h / 2) with (B2R h * bp (-1)) by (change (bp (-1)) with (/ 2); lra). apply mult_bpow_exact_FLT; [apply B2R_fmt|].
    pose proof (mag_ge_bpow radix2 (B2R h) (-19)) as G. rewrite Rabs_pos_eq in G by lra. specialize (G ltac:(apply B)). lia. }
  rewrite (rnd_id _ G) in C. assert (bp 20 < bp 1024) by (apply bpow_lt; lia).
  rewrite Rlt_bool_true in C by (rewrite Rabs_pos_eq; lra). destruct C as (E & Fi & _). rewrite F in Fi. split; [exact Fi|]. unfold fdiv. exact E.
Qed.
(** One end of an interval: c - e or c + e, times 100. *)
Lemma fsub_nonneg M x y : scale M -> is_finite x = true -> is_finite y = true -> Rabs (B2R x - B2R y) <= M -> 0 <= B2R x - B2R y -> 0 <= B2R (fsub x y).
Proof.
  intros HM Fx Fy L P. destruct (rnd_err M 1 (B2R x - B2R y) HM) as [_ T]; [split; [lra|change 1 with (bp 0); apply bpow_le; lia]|lra|].
  pose proof (Bminus_correct 53 1024 Hprec64 Hmax64 mode_NE x y Fx Fy) as C. rewrite fexp64 in C. change (round_mode mode_NE) with ZnearestE in C. rewrite Rlt_bool_true in C by exact T. destruct C as (E & _). unfold fsub. rewrite E. rewrite <- rnd_0. now apply rnd_mono.
Qed.
Lemma fmul_nonneg M x y : scale M -> is_finite x = true -> is_finite y = true -> Rabs (B2R x * B2R y) <= 101 * M -> 0 <= B2R x * B2R y -> 0 <= B2R (fmul x y).
Proof.
  intros HM Fx Fy L P. destruct (rnd_err M 101 (B2R x * B2R y) HM) as [_ T]; [split; [lra|apply Rle_trans with (bp 7); [change (bp 7) with 128; lra|apply bpow_le; lia]]|lra|].
  pose proof (Bmult_correct 53 1024 Hprec64 Hmax64 mode_NE x y) as C. rewrite fexp64 in C. change (round_mode mode_NE) with ZnearestE in C. rewrite Rlt_bool_true in C by exact T. destruct C as (E & _). unfold fmul. rewrite E. rewrite <- rnd_0. now apply rnd_mono.
Qed.
Lemma K_101 : 1 <= 101 <= bp 30.
Proof. split; [lra|]. apply Rle_trans with (bp 7); [change (bp 7) with 128; lra|apply bpow_le; lia]. Qed.
Lemma K_1 : 1 <= 1 <= bp 30.
Proof. split; [lra|]. change 1 with (bp 0). apply bpow_le; lia. Qed.
Lemma end_cm M (x : f64) v : scale M -> about M 1 x v -> Rabs v <= M -> about M 201 (m_to_cm64 x) (100 * v).
Proof.
  intros HM [F A] B. destruct hundred as [F100 V100]. pose proof (bp_pos (-200)). assert (PM : 0 < M) by (destruct HM; lra). assert (U : uu * M <= M / 1024) by (pose proof uu_small; nra).
  destruct (fmul_about M 101 x (f64_of_Z 100) HM K_101 F F100) as [F' A'].
  - rewrite V100, Rabs_mult, (Rabs_pos_eq 100) by lra. assert (Rabs (B2R x) <= M + M / 1024); [|lra]. apply Rabs_le. apply Rabs_le_inv in A, B. lra.
  - split; [exact F'|]. unfold m_to_cm64. rewrite V100 in A'. apply Rabs_le. apply Rabs_le_inv in A, A'. lra.
Qed.

Lemma ring_place {D} (r z h : f64) p (d : list D) x s : between (-20) 20 h -> ordinary_place h r z -> make_openmc_ring_source64 r z (fdiv h f2) p d x = Some s ->
  square_ring (B2R r) (B2R z) (B2R h) (r_lim s) (r_prob s) (z_lim s).
Proof.
  intros Hh (Fr & Fz & Lr & Lz) E. destruct (half_side h Hh) as [Fe Ve]. set (e := fdiv h f2) in *. destruct Hh as [_ Hh]. rewrite !two_bpow in Hh. pose proof (bp_pos (-20)) as P20. set (H := B2R h) in *.
  assert (Up : 2 ^ 20 * H <= bp 40). { replace (bp 40) with (bp 20 * bp 20) by apply bp_mul. replace (2 ^ 20) with (bp 20) by (change (bp 20) with 1048576; ring). apply Rmult_le_compat_l; [left; apply bp_pos|lra]. }
  assert (B40 : 4 * bp 40 <= bp 200). { change 4 with (bp 2). rewrite bp_mul. apply bpow_le. lia. } assert (B20 : bp 20 <= bp 40) by (apply bpow_le; lia). assert (Bm : bp (-200) <= bp (-20)) by (apply bpow_le; lia).
  set (M := B2R r + H). assert (SM : scale M) by (unfold scale, M; split; lra). set (N := Rabs (B2R z) + H). pose proof (Rabs_pos (B2R z)) as Az. assert (SN : scale N) by (unfold scale, N; split; lra).
  pose proof uu_small as [U0 U1]. assert (Uv : uu = / 2 ^ 53) by (rewrite uu_val; change (IZR (2 ^ 53)) with 9007199254740992; lra).
  assert (A1 : about M 1 (fsub r e) (B2R r - H / 2)). { rewrite <- Ve. apply fsub_about; auto; [exact K_1|]. rewrite Ve. apply Rabs_le. unfold M. lra. }
  assert (A2 : about M 1 (fadd r e) (B2R r + H / 2)). { rewrite <- Ve. apply fadd_about; auto; [exact K_1|]. rewrite Ve. apply Rabs_le. unfold M. lra. }
  pose proof (Rle_abs (B2R z)) as Az1. pose proof (Rle_abs (- B2R z)) as Az2. rewrite Rabs_Ropp in Az2.
  assert (A3 : about N 1 (fsub z e) (B2R z - H / 2)). { rewrite <- Ve. apply fsub_about; auto; [exact K_1|]. rewrite Ve. apply Rabs_le. unfold N. lra. }
  assert (A4 : about N 1 (fadd z e) (B2R z + H / 2)). { rewrite <- Ve. apply fadd_about; auto; [exact K_1|]. rewrite Ve. apply Rabs_le. unfold N. lra. }
  assert (P1 : 0 <= B2R (fsub r e)). { apply (fsub_nonneg M); auto; rewrite Ve; [apply Rabs_le; unfold M; lra|lra]. }
  destruct (end_cm M _ _ SM A1 ltac:(apply Rabs_le; unfold M; lra)) as [Fa Ea]. destruct (end_cm M _ _ SM A2 ltac:(apply Rabs_le; unfold M; lra)) as [Fb Eb].
  destruct (end_cm N _ _ SN A3 ltac:(apply Rabs_le; unfold N; lra)) as [Fc Ec]. destruct (end_cm N _ _ SN A4 ltac:(apply Rabs_le; unfold N; lra)) as [Fd Ed].
  assert (Pa : 0 <= B2R (m_to_cm64 (fsub r e))).
  { destruct hundred as [F100 V100]. unfold m_to_cm64. apply (fmul_nonneg M); auto; [apply A1| |rewrite V100; lra]. rewrite V100. destruct A1 as [_ A1]. apply Rabs_le_inv in A1. assert (uu * M <= M / 1024) by (assert (0 <= M) by (unfold M; lra); nra). apply Rabs_le. unfold M in *. lra. }
  set (a := m_to_cm64 (fsub r e)) in *. set (b := m_to_cm64 (fadd r e)) in *. set (c := m_to_cm64 (fsub z e)) in *. set (d' := m_to_cm64 (fadd z e)) in *.
  assert (UM : 201 * (uu * M) <= H). { unfold M. rewrite Uv. lra. } assert (UN : 201 * (uu * N) <= H). { unfold N. rewrite Uv. lra. }
  assert (WM : 201 * (uu * M) <= 100 * M / 2 ^ 50). { rewrite Uv. assert (0 <= M) by (unfold M; lra). lra. } assert (WN : 201 * (uu * N) <= 100 * N / 2 ^ 50). { rewrite Uv. assert (0 <= N) by (unfold N; lra). lra. }
  apply Rabs_le_inv in Ea, Eb, Ec, Ed. assert (Ab : B2R a < B2R b) by lra.
  assert (Na : fin_nn a) by (split; auto). assert (Nb : fin_nn b) by (split; [exact Fb|lra]).
  destruct (fadd_0_l a Na) as [N0 V0]. assert (Big : B2R a + B2R b <= bp 1023). { apply Rle_trans with (bp 10 * bp 200); [|rewrite bp_mul; apply bpow_le; lia]. change (bp 10) with 1024. unfold M in *. lra. }
  destruct (fadd_close (fadd f0 a) b N0 Nb ltac:(rewrite V0; exact Big)) as [Ns Cs]. rewrite V0 in Cs.
  assert (Es : pysum64 [a; b] = fadd (fadd f0 a) b) by reflexivity. set (t := fadd (fadd f0 a) b) in *. assert (Pt : 0 < B2R t) by (eapply close_pos; [exact Cs|lra]).
  assert (W1 : wp 1 <= bp 1) by (apply wp_2; change (INR 1) with 1; lra). destruct (close_le _ _ _ Cs W1) as [T1 T2]. rewrite bp_1 in T1, T2.
  assert (Pr : forall y : f64, fin_nn y -> B2R y <= B2R a + B2R b -> is_finite (fdiv y t) = true /\ Rabs (B2R (fdiv y t) - B2R y / (B2R a + B2R b)) <= / 2 ^ 50).
  { intros y [Fy Py] Ly. assert (Qy : 0 <= B2R y / B2R t <= 2). { split; [apply Rmult_le_pos; [exact Py|left; now apply Rinv_0_lt_compat]|]. apply Rmult_le_reg_r with (B2R t); [exact Pt|]. unfold Rdiv. rewrite Rmult_assoc, Rinv_l by lra. lra. }
    assert (S1 : scale 1) by (unfold scale; change 1 with (bp 0); split; apply bpow_le; lia).
    destruct (fdiv_about 1 2 y t S1) as [F A]; [split; [lra|change 2 with (bp 1); apply bpow_le; lia]|exact Fy|apply Ns|lra|rewrite Rabs_pos_eq; lra|]. split; [exact F|].
    assert (Cy : close 1 (B2R y / B2R t) (B2R y / (B2R a + B2R b))). { apply (close_div 0 1); [now apply close_refl|exact Cs|lra]. }
    apply close_within in Cy; [|change (INR 1) with 1; lra]. unfold within in Cy. change (INR 1) with 1 in Cy.
    assert (Qy' : 0 <= B2R y / (B2R a + B2R b) <= 1). { split; [apply Rmult_le_pos; [exact Py|left; apply Rinv_0_lt_compat; lra]|]. apply Rmult_le_reg_r with (B2R a + B2R b); [lra|]. unfold Rdiv. rewrite Rmult_assoc, Rinv_l by lra. lra. }
    apply Rabs_le_inv in A, Cy. apply Rabs_le. rewrite Uv in A. lra. }
  destruct (Pr a Na ltac:(lra)) as [Fp Ep]. destruct (Pr b Nb ltac:(lra)) as [Fq Eq].
  unfold make_openmc_ring_source64 in E. destruct (Bltb f0 x); [|discriminate]. injection E as <-. cbn [r_lim r_prob z_lim map]. fold a b c d'. rewrite Es.
  exists a, b, (fdiv a t), (fdiv b t), c, d'. split; [reflexivity|]. split; [reflexivity|]. split; [reflexivity|]. split; [repeat (constructor; [assumption|]); constructor|].
  fold M N. repeat split; try lra; try assumption; apply Rabs_le; lra.
Qed.

(** ** The whole source *)
Lemma per_cell_impl {S} st (g g' : nat -> S -> Prop) l srcs :
  (forall i s, In i l -> 0 < emitted st i -> g i s -> g' i s) -> one_per_emitting_cell st g l srcs -> one_per_emitting_cell st g' l srcs.
Proof.
  intros H P. induction P as [|i l srcs Z P IH|i l s srcs Z G P IH]; [constructor 1|constructor 2; [exact Z|apply IH; intros; apply H; auto; now right]|constructor 3; [exact Z|apply H; auto; now left|apply IH; intros; apply H; auto; now right]].
Qed.
Lemma per_cell_sum {D} st k tot (g : nat -> ring64 D -> Prop) l srcs : 0 < tot -> (forall i s, g i s -> close k (B2R (ring_strength s)) (emitted st i / tot)) ->
  one_per_emitting_cell st g l srcs -> close k (exact_sum (map ring_strength srcs)) (fold_right (fun i e => emitted st i + e) 0 l / tot).
Proof.
  intros Pt H P. induction P as [|i l srcs Z P IH|i l s srcs Z G P IH]; cbn [fold_right map].
  - apply (close_weaken 0); [lia|]. replace (0 / tot) with 0 by (field; lra). apply close_refl. lra.
  - rewrite Z, Rplus_0_l. exact IH.
  - change (exact_sum (ring_strength s :: map ring_strength srcs)) with (B2R (ring_strength s) + exact_sum (map ring_strength srcs)). rewrite Rdiv_plus_distr. apply close_plus; [now apply H|exact IH].
Qed.

(** The strengths stored after the normalisations, per reaction. *)
Definition stored (ds : list (reaction * list f64)) (cs : list channel64) : list (reaction * list f64) := combine (map fst ds) (map strength64 cs).
Lemma stored_facts energy ds n j K cs : Forall (fun p => length (snd p) = n) ds -> Forall2 (follows j K) (map new64 (map (channel_data energy) ds)) cs -> Forall ranged cs ->
  Forall (fun p => length (snd p) = n /\ Forall in_range (snd p)) (stored ds cs) /\ length (stored ds cs) = length ds /\
  fold_right (fun p e => INR (neutrons (fst p)) * exact_sum (snd p) + e) 0 (stored ds cs) = exact_rate cs.
Proof.
  unfold stored. intros Hd. revert cs. induction Hd as [|[r s] ds L _ IH]; intros cs F R; cbn [map] in *.
  - inversion F; subst. split; [constructor|]. split; reflexivity.
  - inversion F as [|c0 c l0 cs' Fc F' E1 E2]; subst. inversion R as [|? ? [Rc _] R']; subst. cbn [map combine fst]. destruct (IH cs' F' R') as (I1 & I2 & I3). split; [|split].
    + constructor; [|exact I1]. cbn [snd]. split; [rewrite (follows_length _ _ _ _ Fc); reflexivity|exact Rc].
    + cbn [length]. now rewrite I2.
    + cbn [fold_right exact_rate fst snd]. fold (exact_rate cs'). rewrite I3. destruct Fc as (_ & -> & _). cbn [new64 new_channel64 multiplicity64 channel_data fst snd]. destruct (neutron_count r) as [_ ->]. ring.
Qed.

Lemma combine3_nth (rs zs ts : list f64) i n : length rs = n -> length zs = n -> length ts = n ->
  nth i (combine (combine rs zs) ts) (f0, f0, f0) = (nth i rs f0, nth i zs f0, nth i ts f0).
Proof. intros A B C. rewrite combine_nth by (rewrite combine_length; lia). rewrite combine_nth by lia. reflexivity. Qed.

Theorem C100_openmc_source : forall npsum energy D (spectrum : reaction -> f64 -> D) ds Ps n rs zs side temps,
  (forall l, sums l (npsum l)) -> ordinary_source (map (channel_data energy) ds) -> Forall (fun p => length (snd p) = n) ds ->
  length rs = n -> length zs = n -> length temps = n ->
  between (-20) 20 side -> Forall (fun c => ordinary_place side (fst c) (snd c)) (combine rs zs) ->
  Forall (between (-100) 100) Ps -> INR (length Ps) <= two 40 ->
  let k := (size (map (channel_data energy) ds) + length ds + 2 * length Ps + 3)%nat in
  exists cs srcs, normalise_all64 npsum (map new64 (map (channel_data energy) ds)) Ps = Ok cs /\
    let st := combine (map fst ds) (map strength64 cs) in
    make_openmc_full_combined_source64 spectrum rs zs side temps st (source_rate64 cs) = Ok srcs /\
    one_per_emitting_cell st (fun i s =>
      (is_finite (ring_strength s) = true /\ within k (B2R (ring_strength s)) (emitted st i / all_emitted st n)) /\
      one_per_emitting_reaction i (fun p x => is_finite x = true /\ within (length ds + 3) (B2R x) (emitted_by i p / emitted st i)) st (mixture_p s) /\
      one_per_emitting_reaction i (fun p d => d = spectrum (fst p) (nth i temps f0)) st (mixture_d s) /\
      square_ring (B2R (nth i rs f0)) (B2R (nth i zs f0)) (B2R side) (r_lim s) (r_prob s) (z_lim s)) (seq 0 n) srcs /\
    (0 < all_emitted st n -> within k (exact_sum (map ring_strength srcs)) 1).
Proof.
  intros npsum energy D spectrum ds Ps n rs zs side temps Hs (O1 & O2 & O3) Hn Lr Lz Lt Hside Hpl HP LP k.
  destruct (rates_close npsum Hs _ O1 O2 O3 Ps HP LP) as (K & cs & E & (HK & Fo & Ra & Tp) & _ & Nq & Cq & Sm & Bd). set (dd := map (channel_data energy) ds) in *. set (j := length Ps) in *.
  destruct (stored_facts energy ds n j K cs Hn Fo Ra) as (S1 & S2 & S3). fold (stored ds cs). set (st := stored ds cs) in *.
  assert (Tot : all_emitted st n = exact_rate cs). { rewrite all_emitted_split; [exact S3|]. eapply Forall_impl; [|exact S1]. intros p [X _]; exact X. }
  assert (Ld : (length ds <= size dd)%nat) by (unfold size, dd; rewrite map_length; lia). rewrite two_bpow in O3, LP.
  assert (Kb : INR k <= bp 44).
  { unfold k. rewrite !plus_INR, mult_INR. change (INR 2) with 2. change (INR 3) with (2 + 1). pose proof (le_INR _ _ Ld). pose proof (bpow_le radix2 39 40 ltac:(lia)). assert (1 <= bp 40) by (change 1 with (bp 0); apply bpow_le; lia). change 44%Z with (40 + 4)%Z. rewrite <- bp_mul. change (bp 4) with 16. fold j in LP |- *. lra. }
  assert (L40 : INR (length st) <= bp 40). { rewrite S2. apply Rle_trans with (INR (size dd)); [now apply le_INR|]. pose proof (bpow_le radix2 39 40 ltac:(lia)). lra. }
  rewrite <- Tot in Cq, Bd. set (m := (size dd + 2 * j + 1)%nat) in *.
  destruct (rings_ok spectrum st (source_rate64 cs) m n (fdiv side f2) S1 L40 Sm Nq Cq Bd (combine (combine rs zs) temps) 0) as (srcs & Es & P).
  { rewrite !combine_length. lia. }
  exists cs, srcs. split; [exact E|]. cbv zeta. split; [exact Es|]. replace (length (combine (combine rs zs) temps)) with n in P by (rewrite !combine_length; lia).
  assert (Ek : (length st + m + 2 = k)%nat) by (rewrite S2; unfold m, k; lia).
  split.
  - eapply per_cell_impl; [|exact P]. cbv zeta beta. intros i s Hi Pe G. rewrite Nat.sub_0_r, (combine3_nth rs zs temps i n Lr Lz Lt) in G. cbn [fst snd] in G. destruct G as (G1 & G2 & G3 & G4 & (p & d & x & G5)).
    split; [|split; [|split]].
    + split; [apply G1|]. rewrite Ek in G2. apply close_within; [now apply enough|exact G2].
    + eapply per_reaction_weaken; [|exact G3]. cbn beta. intros p' x' [X1 X2]. split; [apply X1|]. rewrite S2 in X2. apply close_within; [|exact X2]. apply enough. apply Rle_trans with (INR k); [apply le_INR; unfold k; lia|exact Kb].
    + exact G4.
    + eapply ring_place; [exact Hside| |exact G5]. apply in_seq in Hi. rewrite Forall_forall in Hpl. apply (Hpl (nth i rs f0, nth i zs f0)). rewrite <- combine_nth by lia. apply nth_In. rewrite combine_length. lia.
  - intro Pt. apply close_within; [now apply enough|]. rewrite <- Ek. replace 1 with (all_emitted st n / all_emitted st n) by (field; apply Rgt_not_eq; exact Pt). unfold all_emitted at 1. eapply per_cell_sum; [exact Pt| |exact P]. cbv zeta beta. intros i s (_ & G & _). exact G.
Qed.
Print Assumptions C100_openmc_source.

(** ** Examples *)
Definition om_ds : list (reaction * list f64) := [(DT, [s1; lit 0 0; lit 7 50]); (DDn, [lit 5 48; lit 0 0; lit 3 47]); (DDp, [lit 5 48; lit 0 0; lit 3 47])].
Definition om_r : list f64 := [lit 6 0; lit 61 (-3); lit 62 (-3)].
Definition om_z : list f64 := [lit 0 0; lit 1 0; lit (-1) 0].
Definition om_side : f64 := lit 1 (-3).
Lemma om_ranges : between (-50) (-30) E_DT /\ between (-300) 150 s1 /\ between (-300) 150 (lit 7 50) /\ between (-300) 150 (lit 5 48) /\ between (-300) 150 (lit 3 47) /\ between (-20) 20 om_side.
Proof. do 5 (split; [lit_range|]). lit_range. Qed.
Lemma lit_small m e : (Z.abs m < 2 ^ 53)%Z -> (-1074 <= e <= 971)%Z -> is_finite (lit m e) = true /\ B2R (lit m e) = IZR m * bp e.
Proof. intros. now apply normalize_exact. Qed.

(** The hypotheses are met: three cells of which one is dark, D-T and both D-D reactions, normalised to 1 GW; and the source emits. *)
Example C100_hypotheses : let energy := fun _ : reaction => E_DT in
  ordinary_source (map (channel_data energy) om_ds) /\ Forall (fun p => length (snd p) = 3%nat) om_ds /\ length om_r = 3%nat /\ length om_z = 3%nat /\
  between (-20) 20 om_side /\ Forall (fun c => ordinary_place om_side (fst c) (snd c)) (combine om_r om_z) /\ Forall (between (-100) 100) [GW] /\ 0 < all_emitted om_ds 3.
Proof.
  destruct om_ranges as (RE & R1 & R2 & R3 & R4 & RS). pose proof GW_range as RG. intro energy.
  assert (Mn : forall r, is_finite (f64_of_Z (Z.of_nat (num_neutrons r))) = true /\ (B2R (f64_of_Z (Z.of_nat (num_neutrons r))) = 0 \/ 1 <= B2R (f64_of_Z (Z.of_nat (num_neutrons r))) <= two 10)).
  { intro r. destruct (neutron_count r) as [[F _] ->]. split; [exact F|]. rewrite two_bpow. change (bp 10) with 1024. destruct (few_neutrons r) as [[-> _]|[H _]]; [left; reflexivity|right; lra]. }
  split; [split; [|split]|split; [|split; [reflexivity|split; [reflexivity|split; [exact RS|split; [|split]]]]]].
  - unfold om_ds. cbn [map]. constructor; [|constructor; [|constructor; [|constructor]]]; (split; [exact RE|split; [apply Mn|]]); cbn [channel_data snd];
      (constructor; [apply ok_strength; assumption|constructor; [exact ok_zero|constructor; [apply ok_strength; assumption|constructor]]]).
  - exists (channel_data energy (DT, [s1; lit 0 0; lit 7 50])), s1. split; [now left|]. split; [now left|]. destruct R1 as [_ [R1 _]]. rewrite two_bpow in R1. pose proof (bp_pos (-300)). lra.
  - rewrite two_bpow. change (size (map (channel_data energy) om_ds)) with 12%nat. apply Rle_trans with (bp 4); [change (bp 4) with 16; cbn; lra|apply bpow_le; lia].
  - repeat (constructor; [reflexivity|]). constructor.
  - destruct (lit_small 6 0 ltac:(lia) ltac:(lia)) as [F1 V1]. destruct (lit_small 61 (-3) ltac:(lia) ltac:(lia)) as [F2' V2]. destruct (lit_small 62 (-3) ltac:(lia) ltac:(lia)) as [F3 V3].
    destruct (lit_small 0 0 ltac:(lia) ltac:(lia)) as [G1 W1]. destruct (lit_small 1 0 ltac:(lia) ltac:(lia)) as [G2 W2]. destruct (lit_small (-1) 0 ltac:(lia) ltac:(lia)) as [G3 W3]. destruct (lit_small 1 (-3) ltac:(lia) ltac:(lia)) as [_ WS]. fold om_side in WS.
    change (bp 0) with 1 in *. change (bp (-3)) with (/ 8) in *. unfold om_r, om_z. cbn [combine].
    constructor; [|constructor; [|constructor; [|constructor]]]; cbn [fst snd]; (split; [assumption|split; [assumption|]]); rewrite WS; rewrite ?V1, ?V2, ?V3, ?W1, ?W2, ?W3; (split; [lra|apply Rabs_le; lra]).
  - constructor; [exact RG|constructor].
  - assert (Pos : forall x, between (-300) 150 x -> 0 < B2R x) by (intros x [_ [X _]]; rewrite two_bpow in X; pose proof (bp_pos (-300)); lra). pose proof (Pos _ R1). pose proof (Pos _ R2). pose proof (Pos _ R3). pose proof (Pos _ R4).
    destruct (lit_small 0 0 ltac:(lia) ltac:(lia)) as [_ W0]. unfold all_emitted, emitted, om_ds, emitted_by. cbn [seq fold_right nth fst snd]. rewrite W0. assert (N1 : INR (neutrons DT) = 1) by reflexivity. assert (N2 : INR (neutrons DDn) = 1) by reflexivity. assert (N3 : INR (neutrons DDp) = 0) by reflexivity. rewrite N1, N2, N3. lra.
Qed.
