(** Lemmas for C105. *)
From Coq Require Import Ascii String List Bool Arith ZArith Lia Reals Lra.
From Flocq Require Import Core.Core IEEE754.BinarySingleNaN.
From Verif Require Import Base Reactions Space Source SpecSource SourceProofs OpenMCProofs SpectraData Energy TextWrap SpecText Format SpecFormat FormatProofs P_Energy Mcnp SpecMcnp McnpProofs SpecSdef SdefProofs
  FloatComp SpecFloatSource SpecFloatMcnp SpecFloatSdef.
Import ListNotations.
Open Scope R_scope.
Local Notation total := SpecSource.total.

(** ** Looking up cards *)
Lemma entries_miss64 k m o c ws deck i0 s n rest : reads_entries c ws -> c = As i0 :: rest -> key_of i0 = Some (s, n) -> family s -> family k -> (s <> k \/ n <> m) -> entries k (INR m) o (ws :: deck) = entries k (INR m) o deck.
Proof.
  intros R -> K Fs Fk D. inversion R as [|? w0 ? ws' R0 R1]; subst. destruct ws' as [|p e]; [reflexivity|]. cbn [entries].
  pose proof (key_of_reads i0 w0 s n K R0) as V.
  replace (named k (INR m) w0) with false; [reflexivity|]. symmetry. destruct (string_dec k s) as [-> |Nk].
  - rewrite (named_key s n m w0 V). apply Nat.eqb_neq. destruct D; congruence.
  - destruct V as (v & -> & _). unfold named. destruct Fs as [-> |[-> | ->]], Fk as [-> |[-> | ->]]; congruence || reflexivity.
Qed.
Lemma entries_hit64 k m o c ws deck i0 rest : reads_entries c ws -> c = As i0 :: As (Word o) :: rest -> key_of i0 = Some (k, m) ->
  exists e, entries k (INR m) o (ws :: deck) = Some e /\ reads_entries rest e.
Proof.
  intros R -> K. inversion R as [|? w0 ? ws' R0 R1]; subst. inversion R1 as [|? p ? e R2 R3]; subst. cbn [entries].
  rewrite (named_key k m m w0 (key_of_reads i0 w0 k m K R0)), Nat.eqb_refl. cbn [reads_entry reads_item] in R2. subst p. destruct (list_eq_dec ascii_dec (txt o) (txt o)); [|congruence]. now exists e.
Qed.
Lemma entries_sdef64 k x o ws deck : reads_entries (map As sdef_card) ws -> family k -> entries k x o (ws :: deck) = entries k x o deck.
Proof.
  intros R F. inversion R as [|? w0 ? ws' R0 R1]; subst. inversion R1 as [|? p ? e R2 R3]; subst. cbn [reads_entry reads_item] in R0. subst w0. cbn [entries].
  replace (named k x (txt "sdef")) with false; [reflexivity|]. destruct F as [-> |[-> | ->]]; reflexivity.
Qed.
Lemma entries_energy64 table reac T energy ews k m o deck : expected_energy64 table reac T energy -> Forall2 reads_entries energy ews -> family k -> m <> 2%nat ->
  entries k (INR m) o (ews ++ deck) = entries k (INR m) o deck.
Proof.
  intros E F Fk Nm. destruct E.
  - inversion F as [|? w1 ? ? R1 F1]; subst. inversion F1; subst. cbn [app]. eapply entries_miss64; [exact R1|reflexivity|reflexivity|right; left; reflexivity|exact Fk|right; congruence].
  - inversion F as [|? w1 ? ? R1 F1]; subst. inversion F1; subst. cbn [app]. eapply entries_miss64; [exact R1|reflexivity|reflexivity|right; left; reflexivity|exact Fk|right; congruence].
  - inversion F as [|? w1 ? ? R1 F1]; subst. inversion F1 as [|? w2 ? ? R2 F2]; subst. inversion F2; subst. cbn [app].
    erewrite entries_miss64; [|exact R1|reflexivity|reflexivity|left; reflexivity|exact Fk|right; congruence].
    eapply entries_miss64; [exact R2|reflexivity|reflexivity|right; left; reflexivity|exact Fk|right; congruence].
Qed.

(** Numbers of a card. *)
Definition numeric (e : entry) : Prop := match e with As (Num _) | About _ _ => True | _ => False end.
Definition valued (v : R) (e : entry) : Prop := match e with As (Num x) => shown_as v x | About x t => Rabs (v - x) <= t | _ => False end.
Lemma read_values l ws : Forall numeric l -> reads_entries l ws -> exists vs, read_all ws = Some vs /\ Forall2 valued vs l.
Proof.
  intro F. revert ws; induction F as [|x l Hx _ IH]; intros ws R; inversion R as [|? w ? ws' R0 R1]; subst; [exists []; split; [reflexivity|constructor]|].
  destruct (IH ws' R1) as (vs & E & F). assert (V : exists v, read_number w = Some v /\ valued v x).
  { destruct x as [[]|]; try destruct Hx; exact R0. }
  destruct V as (v & Ev & H). exists (v :: vs). cbn [read_all]. rewrite Ev, E. split; [reflexivity|]. constructor; [exact H|exact F].
Qed.
Lemma read_nats64 l ws : reads_entries (map (fun n => As (Nat n)) l) ws -> read_all ws = Some (map INR l).
Proof.
  revert ws; induction l as [|x l IH]; intros ws R; inversion R as [|? w ? ws' R0 R1]; subst; [reflexivity|]. cbn [reads_entry reads_item] in R0. cbn [read_all map]. now rewrite R0, (IH ws' R1).
Qed.
Lemma edges_numeric h cs : Forall numeric (edges64 h cs).
Proof. unfold edges64. apply Forall_app. split; [apply Forall_map, Forall_forall; intros; exact I|constructor; [exact I|constructor]]. Qed.
Lemma edges_length h cs : length (edges64 h cs) = S (length cs).
Proof. unfold edges64. rewrite app_length, map_length. cbn. lia. Qed.
Lemma strengths_numeric l : Forall numeric (map (fun x => As (Num x)) l).
Proof. apply Forall_map, Forall_forall. intros. exact I. Qed.
Lemma amounts_numeric {A} (f : A -> R) l : Forall numeric (map (fun c => amount (f c)) l).
Proof. apply Forall_map, Forall_forall. intros. exact I. Qed.

Lemma histogram_of64 deck n bs ps si sp : entries "SI" n "H" deck = Some si -> entries "SP" n "D" deck = Some sp -> Forall numeric bs -> Forall numeric ps ->
  reads_entries bs si -> reads_entries (As (Num 0) :: ps) sp ->
  length bs = S (length ps) -> exists b p, histogram deck n = Some (combine (bins b) (map (fun x => x / total p) p)) /\ Forall2 valued b bs /\ Forall2 valued p ps /\
  entry_numbers "SI" n "H" deck = Some b /\ entry_numbers "SP" n "D" deck = Some (0 :: p).
Proof.
  intros Esi Esp Nb Np Rsi Rsp L. destruct (read_values bs si Nb Rsi) as (b & Eb & Fb). destruct (read_values (As (Num 0) :: ps) sp) as (p' & Ep & Fp); [constructor; [exact I|exact Np]|exact Rsp|].
  inversion Fp as [|p0 ? p ? H0 Fp']; subst. apply shown_zero in H0. subst p0. exists b, p. split; [|split; [assumption|split; [assumption|unfold entry_numbers; rewrite Esi, Esp; auto]]].
  unfold histogram, entry_numbers. rewrite Esi, Esp, Eb, Ep. destruct (Req_EM_T 0 0); [|congruence].
  rewrite (Forall2_length _ _ _ Fb), (Forall2_length _ _ _ Fp'), L, Nat.eqb_refl. reflexivity.
Qed.

(** Histograms of the columns. *)
Definition shows_column64 (h : R) (hist : list ((R * R) * R)) (c : col) : Prop :=
  exists b p, hist = combine (bins b) (map (fun x => x / total p) p) /\ Forall2 valued b (edges64 h (heights c)) /\ Forall2 valued p (map (fun x => As (Num x)) (strengths c)).
Lemma column_histograms64 h cs : forall n deck pre, Forall2 reads_entries (column_cards64 h n cs) deck ->
  (forall k m o, family k -> (n <= m)%nat -> entries k (INR m) o (pre ++ deck) = entries k (INR m) o deck) ->
  exists hs, all (map (histogram (pre ++ deck)) (map INR (seq n (length cs)))) = Some hs /\ Forall2 (shows_column64 h) hs cs /\
    forall i c, nth_error cs i = Some c -> exists b p, entry_numbers "SI" (INR (n + i)) "H" (pre ++ deck) = Some b /\ entry_numbers "SP" (INR (n + i)) "D" (pre ++ deck) = Some (0 :: p) /\
      Forall2 valued b (edges64 h (heights c)) /\ Forall2 valued p (map (fun x => As (Num x)) (strengths c)).
Proof.
  induction cs as [|c cs IH]; intros n deck pre F Sk; [exists []; split; [reflexivity|split; [constructor|intros [|i] c E; discriminate]]|].
  cbn [column_cards64] in F. inversion F as [|? w1 ? d1 R1 F1]; subst. inversion F1 as [|? w2 ? d2 R2 F2]; subst. cbn [length seq map].
  assert (Lc : length (edges64 h (heights c)) = S (length (map (fun x => As (Num x)) (strengths c)))) by (rewrite edges_length; unfold heights, strengths; now rewrite !map_length).
  destruct (entries_hit64 "SI" n "H" _ w1 (w2 :: d2) _ _ R1 eq_refl eq_refl) as (e1 & E1 & Q1).
  assert (E1m : forall k m o, family k -> (k <> "SI"%string \/ m <> n) -> entries k (INR m) o (w1 :: w2 :: d2) = entries k (INR m) o (w2 :: d2)).
  { intros k m o Fk D. eapply entries_miss64; [exact R1|reflexivity|reflexivity|left; reflexivity|exact Fk|]. destruct D as [D|D]; [left; congruence|right; congruence]. }
  destruct (entries_hit64 "SP" n "D" _ w2 d2 _ _ R2 eq_refl eq_refl) as (e2 & E2 & Q2).
  assert (E2m : forall k m o, family k -> (k <> "SP"%string \/ m <> n) -> entries k (INR m) o (w2 :: d2) = entries k (INR m) o d2).
  { intros k m o Fk D. eapply entries_miss64; [exact R2|reflexivity|reflexivity|right; left; reflexivity|exact Fk|]. destruct D as [D|D]; [left; congruence|right; congruence]. }
  destruct (histogram_of64 (pre ++ w1 :: w2 :: d2) (INR n) (edges64 h (heights c)) (map (fun x => As (Num x)) (strengths c)) e1 e2) as (b & p & Eh & Fb & Fp & Nb & Np).
  - rewrite Sk by (lia || now left). exact E1.
  - rewrite Sk by (lia || (right; now left)). rewrite E1m; [exact E2|right; now left|left; discriminate].
  - apply edges_numeric.
  - apply strengths_numeric.
  - exact Q1.
  - exact Q2.
  - exact Lc.
  - destruct (IH (S n) d2 (pre ++ [w1; w2]) F2) as (hs & Ea & Fh & Ce).
    { intros k m o Fk Hm. rewrite <- app_assoc. cbn [app]. rewrite Sk by (assumption || lia). rewrite E1m by (assumption || (right; lia)). apply E2m; [exact Fk|right; lia]. }
    rewrite <- app_assoc in Ea, Ce. cbn [app] in Ea, Ce. cbn [all]. rewrite Eh. unfold text in *. rewrite Ea. eexists. split; [reflexivity|]. split; [constructor; [|exact Fh]; exists b, p; auto|].
    intros [|i] c' Hc; [injection Hc as <-; rewrite Nat.add_0_r; exists b, p; auto|]. destruct (Ce i c' Hc) as (b' & p' & A). replace (S n + i)%nat with (n + S i)%nat in A by lia. exists b', p'. exact A.
Qed.

Lemma emission_of64 table reac T energy h l deck : expected_energy64 table reac T energy -> Forall2 reads_entries (expected_deck64 energy h (columns l)) deck ->
  exists b p hs, emission deck = Some (concat (map (fun rc => with_radius (fst rc) (snd rc)) (combine (combine (bins b) (map (fun x => x / total p) p)) hs))) /\
    Forall2 valued b (edges64 h (map fst (columns l))) /\ Forall2 valued p (map (fun c => amount (total (strengths c))) (columns l)) /\ Forall2 (shows_column64 h) hs (columns l) /\
    entry_numbers "SI" 3 "H" deck = Some b /\ entry_numbers "SP" 3 "D" deck = Some (0 :: p) /\ entry_numbers "DS" 4 "S" deck = Some (map INR (seq 5 (length (columns l)))) /\
    forall i c, nth_error (columns l) i = Some c -> exists b p, entry_numbers "SI" (INR (5 + i)) "H" deck = Some b /\ entry_numbers "SP" (INR (5 + i)) "D" deck = Some (0 :: p) /\
      Forall2 valued b (edges64 h (heights c)) /\ Forall2 valued p (map (fun x => As (Num x)) (strengths c)).
Proof.
  intros E F. unfold expected_deck64 in F. apply Forall2_app_inv_l in F. destruct F as (d0 & d1 & F0 & F1 & ->). apply Forall2_app_inv_l in F1. destruct F1 as (ews & d2 & Fe & F2 & ->).
  apply Forall2_app_inv_l in F2. destruct F2 as (d3 & d4 & Fr & Fc & ->).
  inversion F0 as [|? w0 ? ? R0 F0']; subst. inversion F0'; subst. unfold radial_cards64 in Fr.
  inversion Fr as [|? w1 ? ? R1 Fr1]; subst. inversion Fr1 as [|? w2 ? ? R2 Fr2]; subst. inversion Fr2 as [|? w3 ? ? R3 Fr3]; subst. inversion Fr3; subst.
  change ([w0] ++ ews ++ [w1; w2; w3] ++ d4) with (w0 :: ews ++ w1 :: w2 :: w3 :: d4).
  assert (H0 : forall k m o, family k -> m <> 2%nat -> entries k (INR m) o (w0 :: ews ++ w1 :: w2 :: w3 :: d4) = entries k (INR m) o (w1 :: w2 :: w3 :: d4)).
  { intros k m o Fk Nm. rewrite entries_sdef64 by assumption. eapply entries_energy64; eassumption. }
  assert (FS : family "SI") by now left. assert (FP : family "SP") by (right; now left). assert (FD : family "DS") by (right; now right).
  assert (H1 : forall k m o, family k -> (k <> "SI"%string \/ m <> 3%nat) -> entries k (INR m) o (w1 :: w2 :: w3 :: d4) = entries k (INR m) o (w2 :: w3 :: d4)).
  { intros k m o Fk D. eapply entries_miss64; [exact R1|reflexivity|reflexivity|exact FS|exact Fk|]. destruct D as [D|D]; [left; congruence|right; congruence]. }
  assert (H2 : forall k m o, family k -> (k <> "SP"%string \/ m <> 3%nat) -> entries k (INR m) o (w2 :: w3 :: d4) = entries k (INR m) o (w3 :: d4)).
  { intros k m o Fk D. eapply entries_miss64; [exact R2|reflexivity|reflexivity|exact FP|exact Fk|]. destruct D as [D|D]; [left; congruence|right; congruence]. }
  assert (H3 : forall k m o, family k -> (k <> "DS"%string \/ m <> 4%nat) -> entries k (INR m) o (w3 :: d4) = entries k (INR m) o d4).
  { intros k m o Fk D. eapply entries_miss64; [exact R3|reflexivity|reflexivity|exact FD|exact Fk|]. destruct D as [D|D]; [left; congruence|right; congruence]. }
  destruct (entries_hit64 "SI" 3 "H" _ w1 (w2 :: w3 :: d4) _ _ R1 eq_refl eq_refl) as (e1 & E1 & Q1).
  destruct (entries_hit64 "SP" 3 "D" _ w2 (w3 :: d4) _ _ R2 eq_refl eq_refl) as (e2 & E2 & Q2).
  destruct (entries_hit64 "DS" 4 "S" _ w3 d4 _ _ R3 eq_refl eq_refl) as (e3 & E3 & Q3).
  set (deck := w0 :: ews ++ w1 :: w2 :: w3 :: d4) in *.
  destruct (histogram_of64 deck (INR 3) (edges64 h (map fst (columns l))) (map (fun c => amount (total (strengths c))) (columns l)) e1 e2) as (b & p & Eh & Fb & Fp & En1 & En2).
  - rewrite H0 by (assumption || lia). exact E1.
  - rewrite H0 by (assumption || lia). rewrite H1; [exact E2|exact FP|left; discriminate].
  - apply edges_numeric.
  - apply (amounts_numeric (fun c => total (strengths c))).
  - exact Q1.
  - exact Q2.
  - now rewrite edges_length, !map_length.
  - assert (Sk : forall k m o, family k -> (5 <= m)%nat -> entries k (INR m) o ((w0 :: ews ++ [w1; w2; w3]) ++ d4) = entries k (INR m) o d4).
    { intros k m o Fk Hm. replace ((w0 :: ews ++ [w1; w2; w3]) ++ d4) with deck by (unfold deck; cbn [app]; now rewrite <- app_assoc).
      rewrite H0 by (assumption || lia). rewrite H1, H2, H3 by (assumption || (right; lia)). reflexivity. }
    destruct (column_histograms64 h (columns l) 5 d4 (w0 :: ews ++ [w1; w2; w3]) Fc Sk) as (hs & Ea & Fh & Ce).
    replace ((w0 :: ews ++ [w1; w2; w3]) ++ d4) with deck in Ea, Ce by (unfold deck; cbn [app]; now rewrite <- app_assoc).
    replace (INR 3) with 3 in * by (cbn; lra).
    assert (Ed : entry_numbers "DS" 4 "S" deck = Some (map INR (seq 5 (length (columns l))))).
    { unfold entry_numbers. replace 4 with (INR 4) by (cbn; lra). rewrite H0 by (assumption || lia). rewrite H1, H2 by (assumption || (left; discriminate)). rewrite E3. exact (read_nats64 _ _ Q3). }
    exists b, p, hs. split; [|split; [exact Fb|split; [exact Fp|split; [exact Fh|split; [exact En1|split; [exact En2|split; [exact Ed|exact Ce]]]]]]].
    unfold emission. rewrite Eh, Ed, Ea.
    assert (Lb : length b = S (length (columns l))) by (rewrite (Forall2_length _ _ _ Fb), edges_length, map_length; reflexivity).
    assert (Lp : length p = length (columns l)) by (rewrite (Forall2_length _ _ _ Fp), map_length; reflexivity).
    assert (Lbins : forall x : list R, length (bins x) = Nat.pred (length x)).
    { induction x as [|a x IH]; [reflexivity|]. destruct x as [|y x]; [reflexivity|]. change (bins (a :: y :: x)) with ((a, y) :: bins (y :: x)). cbn [length]. rewrite IH. reflexivity. }
    rewrite (Forall2_length _ _ _ Fh), combine_length, map_length, Lbins, Lb, Lp. cbn [Nat.pred]. rewrite Nat.min_id, Nat.eqb_refl. reflexivity.
Qed.

(** ** Bins and probabilities *)
Definition near (tol v x : R) : Prop := Rabs (v - x) <= 5 / 10 ^ 6 * Rabs x + tol.
Lemma edges_near h D cs b : cs <> [] -> Forall (fun c => Rabs c + h <= D) cs -> Forall2 valued b (edges64 h cs) -> Forall2 (near (D / 10 ^ 12)) b (boundaries h cs).
Proof.
  intros N F H. unfold edges64 in H. unfold boundaries.
  assert (T : forall c, Rabs c + h <= D -> (Rabs c + h) / 10 ^ 12 <= D / 10 ^ 12). { intros c L. apply Rmult_le_compat_r; [|exact L]. left. apply Rinv_0_lt_compat, pow_lt. lra. }
  apply Forall2_app_inv_r in H. destruct H as (b1 & b2 & H1 & H2 & ->). apply Forall2_app.
  - clear N H2 b2. revert b1 H1. induction F as [|c cs L F IH]; intros b1 H1; inversion H1; subst; constructor; [|apply IH; assumption]. unfold near. specialize (T c L). cbn [valued edge] in *. lra.
  - inversion H2 as [|v ? ? ? Hv H3]; subst. inversion H3; subst. constructor; [|constructor]. assert (L : Rabs (last cs 0) + h <= D).
    { rewrite Forall_forall in F. apply F. destruct (exists_last N) as (l & a & ->). rewrite last_last. apply in_or_app. right. now left. }
    specialize (T _ L). unfold near. cbn [valued edge] in *. lra.
Qed.
Lemma bins_near tol vs xs : Forall2 (near tol) vs xs -> Forall2 (near_bin tol) (bins vs) (bins xs).
Proof.
  induction 1 as [|v x vs xs H F IH]; [constructor|]. destruct F as [|v' x' vs xs H' F]; [constructor|].
  change (bins (v :: v' :: vs)) with ((v, v') :: bins (v' :: vs)). change (bins (x :: x' :: xs)) with ((x, x') :: bins (x' :: xs)).
  constructor; [split; assumption|exact IH].
Qed.
Lemma amount_bounds v x : valued v (amount x) -> x * (1 - 6 / 10 ^ 6) <= v <= x * (1 + 6 / 10 ^ 6).
Proof. cbn [valued amount]. intro H. apply Rabs_le_inv in H. lra. Qed.
Lemma amounts_total vs xs : Forall2 valued vs (map amount xs) -> total xs * (1 - 6 / 10 ^ 6) <= total vs <= total xs * (1 + 6 / 10 ^ 6).
Proof.
  revert xs; induction vs as [|v vs IH]; intros [|x xs] F; inversion F; subst; cbn [SpecSource.total]; [lra|]. specialize (IH xs ltac:(assumption)). pose proof (amount_bounds v x ltac:(assumption)). lra.
Qed.
Lemma product_near P P' S S' q q' Q' : 0 < q <= P -> P <= S ->
  P * (1 - 6 / 10 ^ 6) <= P' <= P * (1 + 6 / 10 ^ 6) -> S * (1 - 6 / 10 ^ 6) <= S' <= S * (1 + 6 / 10 ^ 6) ->
  q * (1 - 5 / 10 ^ 6) <= q' <= q * (1 + 5 / 10 ^ 6) -> P * (1 - 5 / 10 ^ 6) <= Q' <= P * (1 + 5 / 10 ^ 6) ->
  close (23 / 10 ^ 6) (P' / S' * (q' / Q')) (q / S).
Proof.
  intros Hq HS. replace (1 - 5 / 10 ^ 6) with (999995 / 1000000) by field. replace (1 + 5 / 10 ^ 6) with (1000005 / 1000000) by field.
  replace (1 - 6 / 10 ^ 6) with (999994 / 1000000) by field. replace (1 + 6 / 10 ^ 6) with (1000006 / 1000000) by field. intros HP' HS' Hq' HQ'.
  assert (0 < S') by lra. assert (0 < Q') by lra. assert (0 < S) by lra.
  assert (Pos : 0 < q / S) by (apply Rdiv_lt_0_compat; lra).
  assert (Eq : P' / S' * (q' / Q') = q / S * (((P' / P) * (q' / q)) * ((S / S') * (P / Q')))) by (field; repeat split; lra).
  assert (B1 := ratio_in P' P (999994 / 1000000) (1000006 / 1000000) ltac:(lra) ltac:(lra)).
  assert (B2 := ratio_in q' q (999995 / 1000000) (1000005 / 1000000) ltac:(lra) ltac:(lra)).
  assert (B3 := ratio_in S S' (99999399 / 100000000) (100000601 / 100000000) ltac:(lra) ltac:(lra)).
  assert (B4 := ratio_in P Q' (99999499 / 100000000) (100000501 / 100000000) ltac:(lra) ltac:(lra)).
  assert (C1 := mult_in _ _ _ _ _ _ B1 B2 ltac:(lra) ltac:(lra)). assert (C2 := mult_in _ _ _ _ _ _ B3 B4 ltac:(lra) ltac:(lra)).
  assert (C := mult_in _ _ _ _ _ _ C1 C2 ltac:(lra) ltac:(lra)). clear B1 B2 B3 B4 C1 C2. unfold close. rewrite Eq, (Rabs_pos_eq (q / S)) by lra.
  set (k := P' / P * (q' / q) * (S / S' * (P / Q'))) in *. replace (q / S * k - q / S) with (q / S * (k - 1)) by ring. rewrite Rabs_mult, (Rabs_pos_eq (q / S)) by lra.
  rewrite Rmult_comm. apply Rmult_le_compat_r; [lra|]. apply Rabs_le. lra.
Qed.
Lemma shown_strengths p l : Forall2 valued p (map (fun x => As (Num x)) l) -> Forall2 shown_as p l.
Proof. revert l; induction p as [|v p IH]; intros [|x l] F; inversion F; subst; constructor; [assumption|now apply IH]. Qed.

Lemma regions_near h D (cs : list col) b p hs : Forall (fun c => Forall (fun x => 0 <= x) (strengths c)) cs -> Forall (fun c : col => snd c <> []) cs ->
  Forall (fun c => Rabs (fst c) + h <= D) cs -> Forall (fun c => Forall (fun z => Rabs z + h <= D) (heights c)) cs -> cs <> [] ->
  Forall2 valued b (edges64 h (map fst cs)) -> Forall2 valued p (map (fun c => amount (total (strengths c))) cs) -> Forall2 (shows_column64 h) hs cs ->
  Forall2 (near_region (D / 10 ^ 12)) (concat (map (fun rc => with_radius (fst rc) (snd rc)) (combine (combine (bins b) (map (fun x => x / total p) p)) hs)))
    (regions h (total (map (fun c => total (strengths c)) cs)) cs).
Proof.
  intros N Ne DR DZ Nc Fb Fp Fh. apply (edges_near h D) in Fb; [|now destruct cs|now apply Forall_map]. apply bins_near in Fb. unfold regions.
  set (W := total (map (fun c => total (strengths c)) cs)).
  assert (Np : Forall (fun x => 0 <= x) (map (fun c => total (strengths c)) cs)).
  { apply Forall_map. eapply Forall_impl; [|exact N]. cbv beta. intros c Hc. clear - Hc. induction Hc; cbn [SpecSource.total]; lra. }
  assert (Bt : W * (1 - 6 / 10 ^ 6) <= total p <= W * (1 + 6 / 10 ^ 6)) by (apply amounts_total; rewrite map_map; exact Fp). set (W' := total p) in *.
  assert (Le : forall c, In c cs -> total (strengths c) <= W).
  { intros c Hc. apply total_ge_in; [exact Np|]. apply in_map_iff. eauto. }
  clearbody W W'. clear Np Nc DR. apply Forall2_concat.
  revert Fb. generalize (bins (boundaries h (map fst cs))) as eb, (bins b) as bb. clear b.
  revert p hs Fp Fh. induction cs as [|c cs IH]; intros p hs Fp Fh eb bb Fb.
  { inversion Fp; subst. inversion Fh; subst. cbn [map]. destruct bb, eb; constructor. }
  cbn [map] in Fp. inversion Fp as [|P' ? p1 ? HP Fp1]; subst. inversion Fh as [|hc ? hs1 ? Hc Fh1]; subst.
  destruct Fb as [|rb re bb eb Hb Fb]; [constructor|]. cbn [map combine].
  constructor; [|apply IH; try assumption; [exact (Forall_inv_tail N)|exact (Forall_inv_tail Ne)|exact (Forall_inv_tail DZ)|intros; apply Le; now right]].
  destruct Hc as (b & q & -> & Fzb & Fq). apply (edges_near h D) in Fzb; [|pose proof (Forall_inv Ne) as Hn; cbv beta in Hn; unfold heights; now destruct (snd c)|exact (Forall_inv DZ)].
  apply bins_near in Fzb. apply shown_strengths in Fq. cbn [fst snd]. unfold with_radius. cbn [fst snd].
  pose proof (Forall_inv N) as Nc. cbv beta in Nc. destruct (shown_total _ _ Fq Nc) as [Bq Pc]. pose proof (amount_bounds _ _ HP) as BP. set (Q' := total q) in *. specialize (Le c (or_introl eq_refl)).
  assert (In1 : forall x, In x (strengths c) -> x <= total (strengths c)) by (intros x Hx; now apply total_ge_in).
  set (P := total (strengths c)) in *. clearbody P Q'. clear - Hb Fzb Fq BP Bq Bt Le In1 Nc Pc.
  revert Fzb. generalize (bins b) as zb, (bins (boundaries h (heights c))) as ze. induction Fq as [|q' s q ss Hq Fq IH]; intros zb ze Fz.
  { destruct zb, ze; constructor. }
  destruct Fz as [|z1 z2 zb ze Hz Fz]; [constructor|]. cbn [map combine]. constructor; [|apply IH; [exact (Forall_inv_tail Nc)|intros; apply In1; now right|exact Fz]].
  split; [exact Hb|]. split; [exact Hz|]. cbn [fst snd]. pose proof (Forall_inv Nc) as Hs. cbv beta in Hs. destruct (Rle_lt_or_eq_dec 0 s Hs) as [Ps| <-].
  - apply (product_near P P' W W' s q' Q'); try assumption; [split; [exact Ps|apply In1; now left]|now apply shown_bounds].
  - apply shown_zero in Hq. subst q'. unfold close. replace (P' / W' * (0 / Q') - 0 / W) with 0 by (unfold Rdiv; ring). replace (0 / W) with 0 by (unfold Rdiv; ring). rewrite Rabs_R0. lra.
Qed.
