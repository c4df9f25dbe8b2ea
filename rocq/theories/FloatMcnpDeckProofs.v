(** Lemmas for C104: the cards. *)
From Coq Require Import Ascii String List Bool Arith ZArith Reals Lia Lra Permutation.
From Flocq Require Import Core.Core IEEE754.BinarySingleNaN.
From Verif Require Import Base Reactions Space Source SpecSource SourceProofs OpenMCProofs SpectraData Energy TextWrap SpecText TextProofs Format SpecFormat FormatProofs P_Text Mcnp SpecMcnp McnpProofs P_Mcnp
  FloatComp FloatCompProofs FloatCompAcc FloatSource SpecFloatSource FloatSourceProofs FloatSpaceProofs FloatReactivityProofs FloatMcnp SpecFloatMcnp FloatMcnpProofs FloatMcnpFileProofs FloatMcnpNumProofs.
Import ListNotations.
Open Scope R_scope.
Local Notation bp := (bpow radix2).
Local Notation total := SpecSource.total.

(** ** Columns of doubles *)
Definition dcell : Type := f64 * f64 * f64.
Definition dcol : Type := f64 * list (f64 * f64).
Definition cell_as (f : f64 -> R) (c : dcell) : cell := (f (fst (fst c)), f (snd (fst c)), B2R (snd c)).
Definition col_as (f : f64 -> R) (c : dcol) : col := (f (fst c), map (fun p => (f (fst p), B2R (snd p))) (snd c)).
Fixpoint chained (f : f64 -> R) (l : list dcell) : Prop :=
  match l with
  | a :: ((b :: _) as l') => (B2R (fst (fst a)) = B2R (fst (fst b)) <-> f (fst (fst a)) = f (fst (fst b))) /\ chained f l'
  | _ => True
  end.
Lemma dcolumns f l : chained f l -> exists ccs : list dcol,
  columns (map (cell_as B2R) l) = map (col_as B2R) ccs /\ columns (map (cell_as f) l) = map (col_as f) ccs /\
  concat (map (fun c : dcol => map fst (snd c)) ccs) = map (fun c : dcell => snd (fst c)) l /\ concat (map (fun c : dcol => map snd (snd c)) ccs) = map snd l /\
  Forall (fun c => In (fst c) (map (fun c : dcell => fst (fst c)) l) /\ snd c <> []) ccs /\
  match l with [] => ccs = [] | a :: _ => exists k rest, ccs = (fst (fst a), k) :: rest end.
Proof.
  induction l as [|[[r z] s] l IH]; intro C; [exists []; repeat split; constructor|].
  destruct l as [|b l].
  - exists [(r, [(z, s)])]. do 4 (split; [reflexivity|]). split; [constructor; [split; [now left|discriminate]|constructor]|now do 2 eexists].
  - destruct C as [C Ct]. destruct (IH Ct) as (ccs & E1 & E2 & E3 & E4 & E5 & k & rest & ->). clear IH. cbn [fst] in *.
    change (map (cell_as B2R) ((r, z, s) :: b :: l)) with ((B2R r, B2R z, B2R s) :: map (cell_as B2R) (b :: l)). change (map (cell_as f) ((r, z, s) :: b :: l)) with ((f r, f z, B2R s) :: map (cell_as f) (b :: l)).
    rewrite !columns_step, E1, E2. cbn [map col_as fst snd].
    pose proof (Forall_inv E5) as [I0 N0]. pose proof (Forall_inv_tail E5) as It. cbn [fst snd] in *.
    destruct (Req_EM_T (B2R r) (B2R (fst (fst b)))) as [E|E]; destruct (Req_EM_T (f r) (f (fst (fst b)))) as [E'|E']; try tauto.
    + exists ((r, (z, s) :: k) :: rest). cbn [map col_as fst snd concat app] in *. split; [reflexivity|]. split; [reflexivity|]. split; [now rewrite E3|]. split; [now rewrite E4|]. split; [|now do 2 eexists].
      constructor; [split; [now left|discriminate]|]. eapply Forall_impl; [|exact It]. cbv beta. intros c [H1 H2]. split; [now right|exact H2].
    + exists ((r, [(z, s)]) :: (fst (fst b), k) :: rest). cbn [map col_as fst snd concat app] in *. split; [reflexivity|]. split; [reflexivity|]. split; [now rewrite E3|]. split; [now rewrite E4|]. split; [|now do 2 eexists].
      constructor; [split; [now left|discriminate]|]. constructor; [split; [now right|exact N0]|]. eapply Forall_impl; [|exact It]. cbv beta. intros c [H1 H2]. split; [now right|exact H2].
Qed.

(** ** Sums *)
Lemma total_exact (l : list f64) : total (map B2R l) = exact_sum l.
Proof. induction l as [|x l IH]; [reflexivity|]. cbn [map total exact_sum fold_right]. now rewrite IH. Qed.
Lemma strength_in_range s : strength_ok s -> in_range s.
Proof.
  intros [U H]. split; [now apply unsigned_nn|]. rewrite !two_bpow in H. destruct H as [H|H]; [now left|right]. pose proof (bpow_le radix2 (-570) (-300) ltac:(lia)). pose proof (bpow_le radix2 150 200 ltac:(lia)). lra.
Qed.
Lemma many_ok (n : nat) : INR n <= 10 ^ 8 -> INR n <= bp 40 /\ INR n * uu <= / 2.
Proof. intro H. assert (E : 10 ^ 8 <= bp 27) by (change (bp 27) with 134217728; lra). pose proof (bpow_le radix2 27 40 ltac:(lia)). pose proof (bpow_le radix2 40 45 ltac:(lia)). split; [lra|]. apply few. lra. Qed.
Lemma sum_top l : Forall in_range l -> INR (length l) <= 10 ^ 8 -> exact_sum l * wp (length l) <= bp 1023.
Proof.
  intros F L. destruct (many_ok _ L) as [L4 L5]. pose proof (sum_bound l F) as B. pose proof (wp_2 _ L5) as W. pose proof (exact_sum_nonneg l (in_range_nn _ F)). pose proof (wp_pos (length l)).
  apply Rle_trans with (bp 240 * bp 1); [|rewrite bp_mul; apply bpow_le; lia]. apply Rmult_le_compat; try lra. replace (bp 240) with (bp 40 * bp 200) by apply bp_mul. eapply Rle_trans; [exact B|]. apply Rmult_le_compat_r; [apply bpow_ge_0|exact L4].
Qed.
Lemma sum_ok l x : sums l x -> Forall strength_ok l -> INR (length l) <= 10 ^ 8 -> l <> [] ->
  unsigned x /\ close (length l) (B2R x) (total (map B2R l)).
Proof.
  intros S F L N. assert (Fr : Forall in_range l) by (eapply Forall_impl; [|exact F]; apply strength_in_range). pose proof (sum_top l Fr L) as T.
  split; [apply (sums_unsigned l); try assumption; eapply Forall_impl; [|exact F]; now intros a [U _]|]. rewrite total_exact. apply (sums_close l x S (in_range_nn _ Fr) T).
Qed.
Lemma close_rel n x y : INR n <= 3 * 10 ^ 8 -> close n x y -> Rabs (x - y) <= / 10 ^ 7 * y.
Proof.
  intros L C. assert (B : INR n <= bp 45) by (assert (E : 3 * 10 ^ 8 <= bp 29) by (change (bp 29) with 536870912; lra); pose proof (bpow_le radix2 29 45 ltac:(lia)); lra).
  pose proof (close_within n x y (few n B) C) as W. unfold within in W. eapply Rle_trans; [exact W|]. apply Rmult_le_compat_r; [apply C|]. pose proof (pos_INR n).
  apply (Rmult_le_reg_r (2 ^ 52)); [apply pow_lt; lra|]. unfold Rdiv. rewrite Rmult_assoc, Rinv_l, Rmult_1_r by (apply pow_nonzero; lra). rewrite (pow_IZR 2 52). change (IZR (2 ^ Z.of_nat 52)) with 4503599627370496. lra.
Qed.

(** ** The mean ion temperature *)
Section Temperature.
  Variables (MeV : f64) (npsum : list f64 -> f64).
  Hypothesis Hm : factor_ok MeV (/ 1000).
  Hypothesis Hs : forall l, sums l (npsum l).
  Lemma MeV_close : fin_nn MeV /\ close 9 (B2R MeV) (/ 1000) /\ bp (-11) <= B2R MeV <= 1.
  Proof.
    destruct Hm as [F H]. unfold Rdiv in H. rewrite uu_50 in H. pose proof uu_pos as U0. pose proof uu_1e15 as U1. assert (C : close 9 (B2R MeV) (/ 1000)).
    { apply (close_of 8); [cbn [INR]; lra|lra|]. replace (INR 8) with 8 by (cbn [INR]; ring). lra. }
    apply Rabs_le_inv in H. assert (0 < B2R MeV) by nra. split; [split; [exact F|lra]|]. split; [exact C|]. change (bp (-11)) with (/ 2048). nra.
  Qed.
  Lemma temps_bounds (t : f64) : between (-50) 50 t -> fin_nn t /\ bp (-50) <= B2R t <= bp 50.
  Proof. intros [F H]. rewrite !two_bpow in H. pose proof (bpow_gt_0 radix2 (-50)). split; [split; [exact F|lra]|exact H]. Qed.
  Definition products_ (st temps : list f64) : list f64 := map2 fmul st temps.
  Lemma products_ok st : forall temps, Forall strength_ok st -> temps_ok temps -> length temps = length st ->
    Forall fin_nn (products_ st temps) /\ length (products_ st temps) = length st /\
    close 1 (exact_sum (products_ st temps)) (total (map (fun p => fst p * snd p) (combine (map B2R st) (map B2R temps)))) /\
    bp (-50) * exact_sum st <= total (map (fun p => fst p * snd p) (combine (map B2R st) (map B2R temps))) <= bp 50 * exact_sum st.
  Proof.
    induction st as [|s st IH]; intros [|t temps] Fs Ft L; try discriminate.
    - cbn. split; [constructor|]. split; [reflexivity|]. split; [apply (close_weaken 0); [lia|apply close_refl; lra]|]. rewrite !Rmult_0_r. lra.
    - destruct (IH temps (Forall_inv_tail Fs) (Forall_inv_tail Ft) ltac:(cbn in L; lia)) as (F & E & C & B). clear IH.
      destruct (strength_in_range s (Forall_inv Fs)) as [Ns Rs]. destruct (temps_bounds t (Forall_inv Ft)) as [Nt Rt].
      assert (N : normal (B2R s * B2R t)).
      { destruct Rs as [-> |Rs]; [left; ring|]. apply (normal_of _ (-620) 250); [|lia|lia]. pose proof (bp_pos (-570)). pose proof (bp_pos (-50)).
        replace (bp (-620)) with (bp (-570) * bp (-50)) by apply bp_mul. replace (bp 250) with (bp 200 * bp 50) by apply bp_mul. split; apply Rmult_le_compat; lra. }
      destruct (fmul_close s t Ns Nt N) as [Fp Cp]. change (products_ (s :: st) (t :: temps)) with (fmul s t :: products_ st temps). cbn [map combine total fst snd length].
      change (exact_sum (fmul s t :: products_ st temps)) with (B2R (fmul s t) + exact_sum (products_ st temps)). change (exact_sum (s :: st)) with (B2R s + exact_sum st).
      split; [now constructor|]. split; [now rewrite E|]. split; [now apply close_plus|]. destruct Ns as [_ Ns].
      assert (bp (-50) * B2R s <= B2R s * B2R t) by (rewrite Rmult_comm; apply Rmult_le_compat_l; lra). assert (B2R s * B2R t <= bp 50 * B2R s) by (rewrite (Rmult_comm (bp 50)); apply Rmult_le_compat_l; lra). lra.
  Qed.
  Lemma mean_ok st temps : Forall strength_ok st -> temps_ok temps -> length temps = length st -> INR (length st) <= 10 ^ 8 -> 0 < total (map B2R st) ->
    let W := weighted_mean (map B2R st) (map B2R temps) in
    exists T, mean_ion_temp64 npsum st temps = Ok T /\ fin_nn T /\ close (2 * length st + 2) (B2R T) W /\ bp (-50) <= W <= bp 50.
  Proof.
    intros Fs Ft L Ln P W. destruct (products_ok st temps Fs Ft L) as (F & E & C & B). assert (Fr : Forall in_range st) by (eapply Forall_impl; [|exact Fs]; apply strength_in_range).
    destruct (many_ok _ Ln) as [L4 L5]. unfold mean_ion_temp64. rewrite L, Nat.eqb_refl. eexists. split; [reflexivity|].
    fold (products_ st temps). set (ps := products_ st temps) in *. set (Q := total (map (fun p => fst p * snd p) (combine (map B2R st) (map B2R temps)))) in *. rewrite total_exact in P.
    assert (SB := sum_bound st Fr). assert (S0 : bp (-570) <= exact_sum st) by (destruct (sum_zero_or st Fr); lra).
    assert (S1 : exact_sum st <= bp 240) by (replace (bp 240) with (bp 40 * bp 200) by apply bp_mul; eapply Rle_trans; [exact SB|apply Rmult_le_compat_r; [apply bpow_ge_0|exact L4]]).
    assert (Q0 : 0 < Q) by (pose proof (Rmult_lt_0_compat _ _ (bp_pos (-50)) P); lra).
    assert (Q1 : Q <= bp 290) by (replace (bp 290) with (bp 50 * bp 240) by apply bp_mul; eapply Rle_trans; [apply B|apply Rmult_le_compat_l; [apply bpow_ge_0|exact S1]]).
    assert (W1 := wp_2 1 (few 1 ltac:(pose proof (bpow_le radix2 0 45 ltac:(lia)) as Z; change (bp 0) with 1 in Z; cbn; lra))).
    assert (W2 := wp_2 _ L5). pose proof (wp_pos 1). pose proof (wp_pos (length st)).
    assert (T1 : exact_sum ps * wp (length ps) <= bp 1023).
    { rewrite E. destruct C as (C0 & _ & C & _). apply Rle_trans with ((bp 290 * bp 1) * bp 1); [|rewrite !bp_mul; apply bpow_le; lia]. apply Rmult_le_compat; try lra. eapply Rle_trans; [exact C|]. apply Rmult_le_compat; lra. }
    destruct (sums_close ps (npsum ps) (Hs ps) F T1) as (Fp & Cp & _). rewrite E in Cp.
    destruct (sums_close st (npsum st) (Hs st) (in_range_nn _ Fr) (sum_top st Fr Ln)) as (Ft' & Ct & _).
    assert (WQ : W = Q / exact_sum st) by (unfold W, weighted_mean; now rewrite total_exact).
    assert (BW : bp (-50) <= W <= bp 50). { rewrite WQ. split; apply (Rmult_le_reg_r (exact_sum st)); try exact P; unfold Rdiv; rewrite Rmult_assoc, Rinv_l, Rmult_1_r by lra; lra. }
    pose proof (close_div _ _ _ _ _ _ (close_trans _ _ _ _ _ Cp C) Ct P) as CD. rewrite <- WQ in CD. set (n := length st) in *.
    assert (N2 : INR (n + 1 + n) <= bp 45). { rewrite !plus_INR. change (INR 1) with 1. assert (10 ^ 8 <= bp 27) by (change (bp 27) with 134217728; lra). pose proof (bpow_le radix2 30 45 ltac:(lia)) as Z. change (bp 30) with 1073741824 in Z. change (bp 27) with 134217728 in *. lra. }
    pose proof (wp_2 _ (few _ N2)) as W3. pose proof (close_pos _ _ _ Ct P) as Pt.
    assert (ND : normal (B2R (npsum ps) / B2R (npsum st))).
    { apply (normal_of _ (-51) 51); [|lia|lia]. destruct CD as (D0 & _ & D1 & D2). split.
      - replace (bp (-51)) with (bp (-50) * / 2) by (change (/ 2) with (bp (-1)); apply bp_mul). rewrite bp_1 in W3. assert (B2R (npsum ps) / B2R (npsum st) * wp (n + 1 + n) <= B2R (npsum ps) / B2R (npsum st) * 2) by (apply Rmult_le_compat_l; lra). lra.
      - replace (bp 51) with (bp 50 * bp 1) by apply bp_mul. eapply Rle_trans; [exact D1|]. pose proof (wp_pos (n + 1 + n)). apply Rmult_le_compat; try lra. pose proof (bp_pos (-50)). lra. }
    destruct (fdiv_close (npsum ps) (npsum st) Fp Ft' Pt ND) as [FD CE]. split; [exact FD|]. split; [|exact BW].
    replace (2 * n + 2)%nat with (1 + (n + 1 + n))%nat by lia. eapply close_trans; [exact CE|exact CD].
  Qed.
  Lemma in_MeV T n W : fin_nn T -> close n (B2R T) W -> INR n * uu <= / 2 -> bp (-100) <= W <= bp 100 ->
    plain64 (fmul T MeV) /\ close (1 + (n + 9)) (B2R (fmul T MeV)) (W / 1000).
  Proof.
    intros F C L B. destruct MeV_close as (Fm & Cm & Bm). pose proof (wp_2 n L) as W2. rewrite bp_1 in W2. destruct C as (C0 & C1 & C2 & C3).
    assert (LT : bp (-101) <= B2R T). { replace (bp (-101)) with (bp (-100) * / 2) by (change (/ 2) with (bp (-1)); apply bp_mul). assert (B2R T * wp n <= B2R T * 2) by (apply Rmult_le_compat_l; lra). lra. }
    assert (UT : B2R T <= bp 101). { replace (bp 101) with (bp 100 * bp 1) by apply bp_mul. rewrite bp_1. eapply Rle_trans; [exact C2|]. pose proof (wp_pos n). pose proof (bp_pos (-100)). apply Rmult_le_compat; lra. }
    pose proof (bp_pos (-101)) as P1. pose proof (bp_pos (-11)) as P2.
    assert (N : normal (B2R T * B2R MeV)).
    { apply (normal_of _ (-112) 101); [|lia|lia]. replace (bp (-112)) with (bp (-101) * bp (-11)) by apply bp_mul. split; [apply Rmult_le_compat; lra|]. rewrite <- (Rmult_1_r (bp 101)). apply Rmult_le_compat; lra. }
    destruct (fmul_close T MeV F Fm N) as [Fp Cp]. assert (CM : close (n + 9) (B2R T * B2R MeV) (W / 1000)) by (unfold Rdiv; apply close_mult; [repeat split; assumption|exact Cm]).
    assert (CC := close_trans _ _ _ _ _ Cp CM). split; [|exact CC]. split; [apply Fp|]. intro Z. exfalso.
    assert (0 < W / 1000) by (pose proof (bp_pos (-100)); lra). pose proof (close_pos _ _ _ CC H). lra.
  Qed.
End Temperature.

(** ** Words *)
Lemma uu_le_9 : 0 < uu <= / 9007199254740992.
Proof. split; [apply uu_pos|]. rewrite uu_val. apply Rle_refl. Qed.
Definition fits (e : entry) (i : item) : Prop := forall w, reads_item i w -> reads_entry e w.
Lemma fits_as i : fits (As i) i.
Proof. intros w H. exact H. Qed.
Lemma fits_as_all l : Forall2 fits (map As l) l.
Proof. induction l; constructor; [apply fits_as|assumption]. Qed.
Lemma fits_num p x tol y : (p = 5 \/ p = 6)%nat -> Rabs y * (5 / 10 ^ (S p)) + Rabs (y - x) <= tol -> fits (About x tol) (if Nat.eqb p 5 then Num y else Num6 y).
Proof.
  intros [-> | ->] H w R; cbn in R; destruct R as (v & E & B & _); exists v; (split; [exact E|]); replace (v - x) with ((v - y) + (y - x)) by ring; (eapply Rle_trans; [apply Rabs_triang|]); lra.
Qed.
Lemma fits_edge h c x y : 0 < h -> Rabs (y - x) <= 2400 * (uu * (Rabs c + h)) -> fits (edge h c x) (Num y).
Proof.
  intros P H. unfold edge. apply (fits_num 5); [now left|]. pose proof uu_le_9 as U. set (s := Rabs c + h) in *. assert (S0 : 0 < s) by (unfold s; pose proof (Rabs_pos c); lra).
  assert (A : Rabs y <= Rabs x + Rabs (y - x)). { replace y with (x + (y - x)) at 1 by ring. apply Rabs_triang. }
  assert (U2 : uu * s <= / 9007199254740992 * s) by (apply Rmult_le_compat_r; lra). lra.
Qed.
Lemma fits_amount x y : Rabs (y - x) <= / 10 ^ 7 * x -> fits (amount x) (Num y).
Proof.
  intro H. unfold amount. apply (fits_num 5); [now left|]. assert (0 <= x) by (pose proof (Rabs_pos (y - x)); lra).
  assert (A : Rabs y <= Rabs x + Rabs (y - x)). { replace y with (x + (y - x)) at 1 by ring. apply Rabs_triang. } rewrite (Rabs_right x) in A by lra. lra.
Qed.
Lemma fits_amount6 x y : Rabs (y - x) <= / 10 ^ 7 * x -> fits (amount6 x) (Num6 y).
Proof.
  intro H. unfold amount6. apply (fits_num 6); [now right|]. assert (0 <= x) by (pose proof (Rabs_pos (y - x)); lra).
  assert (A : Rabs y <= Rabs x + Rabs (y - x)). { replace y with (x + (y - x)) at 1 by ring. apply Rabs_triang. } rewrite (Rabs_right x) in A by lra. lra.
Qed.
Lemma fits_card es is_ ws : Forall2 fits es is_ -> reads_card is_ ws -> reads_entries es ws.
Proof. intro F. revert ws. induction F as [|e i es is_ He F IH]; intros ws R; inversion R; subst; constructor; [now apply He|now apply IH]. Qed.
Lemma fits_deck es is_ : Forall2 (Forall2 fits) es is_ -> Forall2 reads_entries es (map (map item_word) is_).
Proof. induction 1 as [|e i es is_ He F IH]; constructor; [|exact IH]. apply (fits_card _ i); [exact He|apply reads_card_words]. Qed.
