(** Lemmas for C68. *)
From Coq Require Import Ascii String List Bool Arith ZArith Lia.
From Verif Require Import Base Reactions Space Source SpecSource SourceProofs OpenMCProofs SpectraData Energy TextWrap SpecText Format SpecFormat FormatProofs P_Energy Mcnp SpecMcnp McnpProofs SpecSdef.

(** ** Looking up cards *)
Lemma strip_app k w : strip k (k ++ w) = Some w.
Proof. induction k as [|a k IH]; [reflexivity|]. cbn. now rewrite Ascii.eqb_refl. Qed.
Lemma named_key k n m w : (exists v, w = txt k ++ v /\ shows_nat v n) -> named k (INR m) w = (n =? m)%nat.
Proof.
  intros (v & -> & S). unfold named. rewrite strip_app, S. destruct (Req_EM_T (INR n) (INR m)) as [E|N]; symmetry; [apply Nat.eqb_eq; now apply INR_eq|]. apply Nat.eqb_neq. intros ->. now apply N.
Qed.
Lemma named_other k k' x w n : (k = "SI" \/ k = "SP" \/ k = "DS")%string -> (k' = "SI" \/ k' = "SP")%string -> k <> k' -> (exists v, w = txt k' ++ v /\ shows_nat v n) -> named k x w = false.
Proof. intros [-> |[-> | ->]] [-> | ->] N (v & -> & _); try congruence; reflexivity. Qed.
Lemma read_digit_char : read_number (txt "2") = Some (INR 2) /\ read_number (txt "3") = Some (INR 3) /\ read_number (txt "4") = Some (INR 4).
Proof. exact (conj (show_nat_reads 2) (conj (show_nat_reads 3) (show_nat_reads 4))). Qed.
Definition key_of (i : item) : option (string * nat) :=
  match i with
  | Key s n => Some (s, n)
  | Word s =>
      if String.eqb s "SI2" then Some ("SI", 2%nat)%string else if String.eqb s "SP2" then Some ("SP", 2%nat)%string else
      if String.eqb s "SI3" then Some ("SI", 3%nat)%string else if String.eqb s "SP3" then Some ("SP", 3%nat)%string else
      if String.eqb s "DS4" then Some ("DS", 4%nat)%string else None
  | _ => None
  end.
Lemma key_of_reads i w s n : key_of i = Some (s, n) -> reads_item i w -> exists v, w = txt s ++ v /\ shows_nat v n.
Proof.
  destruct read_digit_char as (R2 & R3 & R4).
  destruct i as [x|x k|x|x|k]; cbn [key_of reads_item]; try discriminate.
  - repeat (match goal with |- context [String.eqb x ?y] => destruct (String.eqb_spec x y) as [-> |_] end; [intro E; injection E as <- <-; intros ->; eexists (_ :: nil); split; [reflexivity|assumption]|]). discriminate.
  - intro E. injection E as <- <-. exact (fun H => H).
Qed.
Definition family (s : string) : Prop := (s = "SI" \/ s = "SP" \/ s = "DS")%string.
Lemma entries_miss k m o c ws deck i0 s n rest : reads_card c ws -> c = i0 :: rest -> key_of i0 = Some (s, n) -> family s -> family k -> (s <> k \/ n <> m) -> entries k (INR m) o (ws :: deck) = entries k (INR m) o deck.
Proof.
  intros R -> K Fs Fk D. inversion R as [|? w0 ? ws' R0 R1]; subst. destruct ws' as [|p e]; [reflexivity|]. cbn [entries].
  pose proof (key_of_reads i0 w0 s n K R0) as V.
  replace (named k (INR m) w0) with false; [reflexivity|]. symmetry. destruct (string_dec k s) as [-> |Nk].
  - rewrite (named_key s n m w0 V). apply Nat.eqb_neq. destruct D; congruence.
  - destruct V as (v & -> & _). unfold named. destruct Fs as [-> |[-> | ->]], Fk as [-> |[-> | ->]]; congruence || reflexivity.
Qed.
Lemma entries_hit k m o c ws deck i0 rest : reads_card c ws -> c = i0 :: Word o :: rest -> key_of i0 = Some (k, m) ->
  exists e, entries k (INR m) o (ws :: deck) = Some e /\ reads_card rest e.
Proof.
  intros R -> K. inversion R as [|? w0 ? ws' R0 R1]; subst. inversion R1 as [|? p ? e R2 R3]; subst. cbn [entries].
  rewrite (named_key k m m w0 (key_of_reads i0 w0 k m K R0)), Nat.eqb_refl. cbn [reads_item] in R2. subst p. destruct (list_eq_dec ascii_dec (txt o) (txt o)); [|congruence]. now exists e.
Qed.
Lemma entries_sdef k x o ws deck : reads_card sdef_card ws -> family k -> entries k x o (ws :: deck) = entries k x o deck.
Proof.
  intros R F. inversion R as [|? w0 ? ws' R0 R1]; subst. inversion R1 as [|? p ? e R2 R3]; subst. cbn [reads_item] in R0. subst w0. cbn [entries].
  replace (named k x (txt "sdef")) with false; [reflexivity|]. destruct F as [-> |[-> | ->]]; reflexivity.
Qed.
Lemma entries_energy d reac T energy ews k m o deck : expected_energy d reac T energy -> Forall2 reads_card energy ews -> family k -> m <> 2%nat ->
  entries k (INR m) o (ews ++ deck) = entries k (INR m) o deck.
Proof.
  intros E F Fk Nm. destruct E.
  - inversion F as [|? w1 ? ? R1 F1]; subst. inversion F1; subst. cbn [app]. eapply entries_miss; [exact R1|reflexivity|reflexivity|right; left; reflexivity|exact Fk|right; congruence].
  - inversion F as [|? w1 ? ? R1 F1]; subst. inversion F1; subst. cbn [app]. eapply entries_miss; [exact R1|reflexivity|reflexivity|right; left; reflexivity|exact Fk|right; congruence].
  - inversion F as [|? w1 ? ? R1 F1]; subst. inversion F1 as [|? w2 ? ? R2 F2]; subst. inversion F2; subst. cbn [app].
    erewrite entries_miss; [|exact R1|reflexivity|reflexivity|left; reflexivity|exact Fk|right; congruence].
    eapply entries_miss; [exact R2|reflexivity|reflexivity|right; left; reflexivity|exact Fk|right; congruence].
Qed.

(** Numbers of a card. *)
Definition shown_as (v x : R) : Prop := Rabs (v - x) <= Rabs x * (5 / 10 ^ 6) /\ (0 < v <-> 0 < x) /\ (v < 0 <-> x < 0).
Lemma read_nums l ws : reads_card (map Num l) ws -> exists vs, read_all ws = Some vs /\ Forall2 shown_as vs l.
Proof.
  revert ws; induction l as [|x l IH]; intros ws R; inversion R as [|? w ? ws' R0 R1]; subst; [exists []; split; [reflexivity|constructor]|].
  destruct (IH ws' R1) as (vs & E & F). cbn [reads_item] in R0. destruct R0 as (v & Ev & H). exists (v :: vs). cbn [read_all]. rewrite Ev, E. split; [reflexivity|]. constructor; [exact H|exact F].
Qed.
Lemma read_nats l ws : reads_card (map Nat l) ws -> read_all ws = Some (map INR l).
Proof.
  revert ws; induction l as [|x l IH]; intros ws R; inversion R as [|? w ? ws' R0 R1]; subst; [reflexivity|]. cbn [reads_item] in R0. cbn [read_all map]. now rewrite R0, (IH ws' R1).
Qed.
Lemma shown_zero v : shown_as v 0 -> v = 0.
Proof. intros [H _]. rewrite Rabs_R0, Rmult_0_l, Rminus_0_r in H. pose proof (Rabs_pos v). destruct (Req_dec v 0); [assumption|]. pose proof (Rabs_pos_lt v H1). lra. Qed.

(** Histogram of a pair of cards that come first. *)
Lemma histogram_of deck n bs ps si sp : entries "SI" n "H" deck = Some si -> entries "SP" n "D" deck = Some sp -> reads_card (map Num bs) si -> reads_card (Num 0 :: map Num ps) sp ->
  length bs = S (length ps) -> exists b p, histogram deck n = Some (combine (bins b) (map (fun x => x / total p) p)) /\ Forall2 shown_as b bs /\ Forall2 shown_as p ps /\
  entry_numbers "SI" n "H" deck = Some b /\ entry_numbers "SP" n "D" deck = Some (0 :: p).
Proof.
  intros Esi Esp Rsi Rsp L. destruct (read_nums bs si Rsi) as (b & Eb & Fb). destruct (read_nums (0 :: ps) sp Rsp) as (p' & Ep & Fp).
  inversion Fp as [|p0 ? p ? H0 Fp']; subst. apply shown_zero in H0. subst p0. exists b, p. split; [|split; [assumption|split; [assumption|unfold entry_numbers; rewrite Esi, Esp; auto]]].
  unfold histogram, entry_numbers. rewrite Esi, Esp, Eb, Ep. destruct (Req_EM_T 0 0); [|congruence].
  rewrite (Forall2_length _ _ _ Fb), (Forall2_length _ _ _ Fp'), L, Nat.eqb_refl. reflexivity.
Qed.

(** Histograms of the columns. *)
Definition shows_column (h : R) (hist : list ((R * R) * R)) (c : col) : Prop :=
  exists b p, hist = combine (bins b) (map (fun x => x / total p) p) /\ Forall2 shown_as b (boundaries h (heights c)) /\ Forall2 shown_as p (strengths c).
Lemma column_histograms h cs : forall n deck pre, Forall2 reads_card (column_cards h n cs) deck -> Forall (fun c : col => snd c <> []) cs ->
  (forall k m o, family k -> (n <= m)%nat -> entries k (INR m) o (pre ++ deck) = entries k (INR m) o deck) ->
  exists hs, all (map (histogram (pre ++ deck)) (map INR (seq n (length cs)))) = Some hs /\ Forall2 (shows_column h) hs cs.
Proof.
  induction cs as [|c cs IH]; intros n deck pre F N Sk; [exists []; split; [reflexivity|constructor]|].
  cbn [column_cards] in F. inversion F as [|? w1 ? d1 R1 F1]; subst. inversion F1 as [|? w2 ? d2 R2 F2]; subst. cbn [length seq map].
  assert (Lc : length (boundaries h (heights c)) = S (length (strengths c))) by (rewrite boundaries_length; unfold heights, strengths; now rewrite !map_length).
  destruct (entries_hit "SI" n "H" _ w1 (w2 :: d2) _ _ R1 eq_refl eq_refl) as (e1 & E1 & Q1).
  assert (E1m : forall k m o, family k -> (k <> "SI"%string \/ m <> n) -> entries k (INR m) o (w1 :: w2 :: d2) = entries k (INR m) o (w2 :: d2)).
  { intros k m o Fk D. eapply entries_miss; [exact R1|reflexivity|reflexivity|left; reflexivity|exact Fk|]. destruct D as [D|D]; [left; congruence|right; congruence]. }
  destruct (entries_hit "SP" n "D" _ w2 d2 _ _ R2 eq_refl eq_refl) as (e2 & E2 & Q2).
  assert (E2m : forall k m o, family k -> (k <> "SP"%string \/ m <> n) -> entries k (INR m) o (w2 :: d2) = entries k (INR m) o d2).
  { intros k m o Fk D. eapply entries_miss; [exact R2|reflexivity|reflexivity|right; left; reflexivity|exact Fk|]. destruct D as [D|D]; [left; congruence|right; congruence]. }
  destruct (histogram_of (pre ++ w1 :: w2 :: d2) (INR n) (boundaries h (heights c)) (strengths c) e1 e2) as (b & p & Eh & Fb & Fp & _).
  - rewrite Sk by (lia || now left). exact E1.
  - rewrite Sk by (lia || (right; now left)). rewrite E1m; [exact E2|right; now left|left; discriminate].
  - exact Q1.
  - exact Q2.
  - exact Lc.
  - destruct (IH (S n) d2 (pre ++ [w1; w2]) F2 (Forall_inv_tail N)) as (hs & Ea & Fh).
    { intros k m o Fk Hm. rewrite <- app_assoc. cbn [app]. rewrite Sk by (assumption || lia). rewrite E1m by (assumption || (right; lia)). apply E2m; [exact Fk|right; lia]. }
    rewrite <- app_assoc in Ea. cbn [app] in Ea. cbn [all]. rewrite Eh. unfold text in *. rewrite Ea. eexists. split; [reflexivity|]. constructor; [|exact Fh]. exists b, p. auto.
Qed.

(** The cards of the columns. *)
Lemma column_entries h cs : forall n deck pre, Forall2 reads_card (column_cards h n cs) deck ->
  (forall k m o, family k -> (n <= m)%nat -> entries k (INR m) o (pre ++ deck) = entries k (INR m) o deck) ->
  forall i c, nth_error cs i = Some c -> exists b p, entry_numbers "SI" (INR (n + i)) "H" (pre ++ deck) = Some b /\ entry_numbers "SP" (INR (n + i)) "D" (pre ++ deck) = Some (0 :: p) /\
    Forall2 shown_as b (boundaries h (heights c)) /\ Forall2 shown_as p (strengths c).
Proof.
  induction cs as [|c cs IH]; intros n deck pre F Sk i c' E; [destruct i; discriminate|].
  cbn [column_cards] in F. inversion F as [|? w1 ? d1 R1 F1]; subst. inversion F1 as [|? w2 ? d2 R2 F2]; subst.
  destruct (entries_hit "SI" n "H" _ w1 (w2 :: d2) _ _ R1 eq_refl eq_refl) as (e1 & E1 & Q1).
  assert (E1m : forall k m o, family k -> (k <> "SI"%string \/ m <> n) -> entries k (INR m) o (w1 :: w2 :: d2) = entries k (INR m) o (w2 :: d2)).
  { intros k m o Fk D. eapply entries_miss; [exact R1|reflexivity|reflexivity|left; reflexivity|exact Fk|]. destruct D as [D|D]; [left; congruence|right; congruence]. }
  destruct (entries_hit "SP" n "D" _ w2 d2 _ _ R2 eq_refl eq_refl) as (e2 & E2 & Q2).
  assert (E2m : forall k m o, family k -> (k <> "SP"%string \/ m <> n) -> entries k (INR m) o (w2 :: d2) = entries k (INR m) o d2).
  { intros k m o Fk D. eapply entries_miss; [exact R2|reflexivity|reflexivity|right; left; reflexivity|exact Fk|]. destruct D as [D|D]; [left; congruence|right; congruence]. }
  destruct i as [|i].
  - injection E as <-. rewrite Nat.add_0_r. unfold entry_numbers. rewrite !Sk by (lia || (left; reflexivity) || (right; left; reflexivity)). rewrite E1, E1m, E2 by ((right; left; reflexivity) || (left; discriminate)).
    destruct (read_nums _ _ Q1) as (b & Eb & Fb). destruct (read_nums (0 :: strengths c) _ Q2) as (p & Ep & Fp). inversion Fp as [|p0 ? p' ? H0 Fp']; subst. apply shown_zero in H0. subst p0.
    exists b, p'. auto.
  - destruct (IH (S n) d2 (pre ++ [w1; w2]) F2) with (i := i) (c := c') as (b & p & A & B & C & D).
    { intros k m o Fk Hm. rewrite <- app_assoc. cbn [app]. rewrite Sk by (assumption || lia). rewrite E1m by (assumption || (right; lia)). apply E2m; [exact Fk|right; lia]. }
    { exact E. }
    rewrite <- app_assoc in A, B. cbn [app] in A, B. replace (S n + i)%nat with (n + S i)%nat in A, B by lia. exists b, p. auto.
Qed.

Lemma emission_of d reac T energy h l deck : expected_energy d reac T energy -> Forall2 reads_card (expected_deck energy h (columns l)) deck ->
  exists b p hs, emission deck = Some (concat (map (fun rc => with_radius (fst rc) (snd rc)) (combine (combine (bins b) (map (fun x => x / total p) p)) hs))) /\
    Forall2 shown_as b (boundaries h (map fst (columns l))) /\ Forall2 shown_as p (map (fun c => total (strengths c)) (columns l)) /\ Forall2 (shows_column h) hs (columns l) /\
    entry_numbers "SI" 3 "H" deck = Some b /\ entry_numbers "SP" 3 "D" deck = Some (0 :: p) /\ entry_numbers "DS" 4 "S" deck = Some (map INR (seq 5 (length (columns l)))) /\
    forall i c, nth_error (columns l) i = Some c -> exists b p, entry_numbers "SI" (INR (5 + i)) "H" deck = Some b /\ entry_numbers "SP" (INR (5 + i)) "D" deck = Some (0 :: p) /\
      Forall2 shown_as b (boundaries h (heights c)) /\ Forall2 shown_as p (strengths c).
Proof.
  intros E F. unfold expected_deck in F. apply Forall2_app_inv_l in F. destruct F as (d0 & d1 & F0 & F1 & ->). apply Forall2_app_inv_l in F1. destruct F1 as (ews & d2 & Fe & F2 & ->).
  apply Forall2_app_inv_l in F2. destruct F2 as (d3 & d4 & Fr & Fc & ->).
  inversion F0 as [|? w0 ? ? R0 F0']; subst. inversion F0'; subst. unfold radial_cards in Fr.
  inversion Fr as [|? w1 ? ? R1 Fr1]; subst. inversion Fr1 as [|? w2 ? ? R2 Fr2]; subst. inversion Fr2 as [|? w3 ? ? R3 Fr3]; subst. inversion Fr3; subst.
  change ([w0] ++ ews ++ [w1; w2; w3] ++ d4) with (w0 :: ews ++ w1 :: w2 :: w3 :: d4).
  assert (H0 : forall k m o, family k -> m <> 2%nat -> entries k (INR m) o (w0 :: ews ++ w1 :: w2 :: w3 :: d4) = entries k (INR m) o (w1 :: w2 :: w3 :: d4)).
  { intros k m o Fk Nm. rewrite entries_sdef by assumption. eapply entries_energy; eassumption. }
  assert (FS : family "SI") by now left. assert (FP : family "SP") by (right; now left). assert (FD : family "DS") by (right; now right).
  assert (H1 : forall k m o, family k -> (k <> "SI"%string \/ m <> 3%nat) -> entries k (INR m) o (w1 :: w2 :: w3 :: d4) = entries k (INR m) o (w2 :: w3 :: d4)).
  { intros k m o Fk D. eapply entries_miss; [exact R1|reflexivity|reflexivity|exact FS|exact Fk|]. destruct D as [D|D]; [left; congruence|right; congruence]. }
  assert (H2 : forall k m o, family k -> (k <> "SP"%string \/ m <> 3%nat) -> entries k (INR m) o (w2 :: w3 :: d4) = entries k (INR m) o (w3 :: d4)).
  { intros k m o Fk D. eapply entries_miss; [exact R2|reflexivity|reflexivity|exact FP|exact Fk|]. destruct D as [D|D]; [left; congruence|right; congruence]. }
  assert (H3 : forall k m o, family k -> (k <> "DS"%string \/ m <> 4%nat) -> entries k (INR m) o (w3 :: d4) = entries k (INR m) o d4).
  { intros k m o Fk D. eapply entries_miss; [exact R3|reflexivity|reflexivity|exact FD|exact Fk|]. destruct D as [D|D]; [left; congruence|right; congruence]. }
  destruct (entries_hit "SI" 3 "H" _ w1 (w2 :: w3 :: d4) _ _ R1 eq_refl eq_refl) as (e1 & E1 & Q1).
  destruct (entries_hit "SP" 3 "D" _ w2 (w3 :: d4) _ _ R2 eq_refl eq_refl) as (e2 & E2 & Q2).
  destruct (entries_hit "DS" 4 "S" _ w3 d4 _ _ R3 eq_refl eq_refl) as (e3 & E3 & Q3).
  set (deck := w0 :: ews ++ w1 :: w2 :: w3 :: d4) in *.
  destruct (histogram_of deck (INR 3) (boundaries h (map fst (columns l))) (map (fun c => total (strengths c)) (columns l)) e1 e2) as (b & p & Eh & Fb & Fp & En1 & En2).
  - rewrite H0 by (assumption || lia). exact E1.
  - rewrite H0 by (assumption || lia). rewrite H1; [exact E2|exact FP|left; discriminate].
  - exact Q1.
  - rewrite map_map. exact Q2.
  - now rewrite boundaries_length, !map_length.
  - assert (Sk : forall k m o, family k -> (5 <= m)%nat -> entries k (INR m) o ((w0 :: ews ++ [w1; w2; w3]) ++ d4) = entries k (INR m) o d4).
    { intros k m o Fk Hm. replace ((w0 :: ews ++ [w1; w2; w3]) ++ d4) with deck by (unfold deck; cbn [app]; now rewrite <- app_assoc).
      rewrite H0 by (assumption || lia). rewrite H1, H2, H3 by (assumption || (right; lia)). reflexivity. }
    destruct (column_histograms h (columns l) 5 d4 (w0 :: ews ++ [w1; w2; w3]) Fc (columns_nonempty l) Sk) as (hs & Ea & Fh).
    pose proof (column_entries h (columns l) 5 d4 (w0 :: ews ++ [w1; w2; w3]) Fc Sk) as Ce.
    replace ((w0 :: ews ++ [w1; w2; w3]) ++ d4) with deck in Ea, Ce by (unfold deck; cbn [app]; now rewrite <- app_assoc).
    replace (INR 3) with 3 in * by (cbn; lra).
    assert (Ed : entry_numbers "DS" 4 "S" deck = Some (map INR (seq 5 (length (columns l))))).
    { unfold entry_numbers. replace 4 with (INR 4) by (cbn; lra). rewrite H0 by (assumption || lia). rewrite H1, H2 by (assumption || (left; discriminate)). rewrite E3. exact (read_nats _ _ Q3). }
    exists b, p, hs. split; [|split; [exact Fb|split; [exact Fp|split; [exact Fh|split; [exact En1|split; [exact En2|split; [exact Ed|exact Ce]]]]]]].
    unfold emission. rewrite Eh, Ed, Ea.
    assert (Lb : length b = S (length (columns l))) by (rewrite (Forall2_length _ _ _ Fb), boundaries_length, map_length; reflexivity).
    assert (Lp : length p = length (columns l)) by (rewrite (Forall2_length _ _ _ Fp), map_length; reflexivity).
    assert (Lbins : forall x : list R, length (bins x) = pred (length x)).
    { induction x as [|a x IH]; [reflexivity|]. destruct x as [|y x]; [reflexivity|]. change (bins (a :: y :: x)) with ((a, y) :: bins (y :: x)). cbn [length]. rewrite IH. reflexivity. }
    rewrite (Forall2_length _ _ _ Fh), combine_length, map_length, Lbins, Lb, Lp. cbn [pred]. rewrite Nat.min_id, Nat.eqb_refl. reflexivity.
Qed.

(** ** Probabilities *)
Lemma shown_bounds v x : 0 <= x -> shown_as v x -> x * (1 - 5 / 10 ^ 6) <= v <= x * (1 + 5 / 10 ^ 6).
Proof. intros Hx [H _]. rewrite (Rabs_pos_eq x Hx) in H. unfold Rabs in H. destruct (Rcase_abs (v - x)); lra. Qed.
Lemma shown_total vs xs : Forall2 shown_as vs xs -> Forall (fun x => 0 <= x) xs -> total xs * (1 - 5 / 10 ^ 6) <= total vs <= total xs * (1 + 5 / 10 ^ 6) /\ 0 <= total xs.
Proof.
  induction 1 as [|v x vs xs H _ IH]; intro F; [cbn; lra|]. specialize (IH (Forall_inv_tail F)). pose proof (shown_bounds v x (Forall_inv F) H). pose proof (Forall_inv F). cbv beta in *. cbn [total]. lra.
Qed.
Lemma total_ge_in x xs : Forall (fun x => 0 <= x) xs -> In x xs -> x <= total xs.
Proof.
  induction 1 as [|y xs Hy F IH]; [easy|]. assert (0 <= total xs) by (clear - F; induction F; cbn; lra). intros [-> |H']; cbn [total]; [lra|]. specialize (IH H'). lra.
Qed.
Lemma ratio_in a b lo hi : 0 < b -> lo * b <= a <= hi * b -> lo <= a / b <= hi.
Proof.
  intros Hb [H1 H2]. split; apply (Rmult_le_reg_r b); try assumption; unfold Rdiv; rewrite Rmult_assoc, Rinv_l by lra; lra.
Qed.
Lemma mult_in x y a b c e : a <= x <= b -> c <= y <= e -> 0 <= a -> 0 <= c -> a * c <= x * y <= b * e.
Proof. intros. split; apply Rmult_le_compat; lra. Qed.
Lemma product_close P P' S S' q q' Q' : 0 < q <= P -> P <= S ->
  P * (1 - 5 / 10 ^ 6) <= P' <= P * (1 + 5 / 10 ^ 6) -> S * (1 - 5 / 10 ^ 6) <= S' <= S * (1 + 5 / 10 ^ 6) ->
  q * (1 - 5 / 10 ^ 6) <= q' <= q * (1 + 5 / 10 ^ 6) -> P * (1 - 5 / 10 ^ 6) <= Q' <= P * (1 + 5 / 10 ^ 6) ->
  close (21 / 10 ^ 6) (P' / S' * (q' / Q')) (q / S).
Proof.
  intros Hq HS. replace (1 - 5 / 10 ^ 6) with (999995 / 1000000) by field. replace (1 + 5 / 10 ^ 6) with (1000005 / 1000000) by field. intros HP' HS' Hq' HQ'.
  assert (0 < S') by lra. assert (0 < Q') by lra. assert (0 < S) by lra.
  assert (Pos : 0 < q / S) by (apply Rdiv_lt_0_compat; lra).
  assert (Eq : P' / S' * (q' / Q') = q / S * (((P' / P) * (q' / q)) * ((S / S') * (P / Q')))) by (field; repeat split; lra).
  assert (B1 := ratio_in P' P (999995 / 1000000) (1000005 / 1000000) ltac:(lra) ltac:(lra)).
  assert (B2 := ratio_in q' q (999995 / 1000000) (1000005 / 1000000) ltac:(lra) ltac:(lra)).
  assert (B3 := ratio_in S S' (99999499 / 100000000) (100000501 / 100000000) ltac:(lra) ltac:(lra)).
  assert (B4 := ratio_in P Q' (99999499 / 100000000) (100000501 / 100000000) ltac:(lra) ltac:(lra)).
  assert (C1 := mult_in _ _ _ _ _ _ B1 B2 ltac:(lra) ltac:(lra)). assert (C2 := mult_in _ _ _ _ _ _ B3 B4 ltac:(lra) ltac:(lra)).
  assert (C := mult_in _ _ _ _ _ _ C1 C2 ltac:(lra) ltac:(lra)). clear B1 B2 B3 B4 C1 C2. unfold close. rewrite Eq, (Rabs_pos_eq (q / S)) by lra.
  set (k := P' / P * (q' / q) * (S / S' * (P / Q'))) in *. replace (q / S * k - q / S) with (q / S * (k - 1)) by ring. rewrite Rabs_mult, (Rabs_pos_eq (q / S)) by lra.
  rewrite Rmult_comm. apply Rmult_le_compat_r; [lra|]. apply Rabs_le. lra.
Qed.
Lemma shown_close v x : shown_as v x -> close (5 / 10 ^ 6) v x.
Proof. intros [H _]. unfold close. lra. Qed.
Lemma bins_close vs xs : Forall2 shown_as vs xs -> Forall2 close_bin (bins vs) (bins xs).
Proof.
  induction 1 as [|v x vs xs H F IH]; [constructor|]. destruct F as [|v' x' vs xs H' F]; [constructor|].
  change (bins (v :: v' :: vs)) with ((v, v') :: bins (v' :: vs)). change (bins (x :: x' :: xs)) with ((x, x') :: bins (x' :: xs)).
  constructor; [split; now apply shown_close|exact IH].
Qed.
Lemma Forall2_concat {A B} (P : A -> B -> Prop) a b : Forall2 (Forall2 P) a b -> Forall2 P (concat a) (concat b).
Proof. induction 1; [constructor|]. cbn. now apply Forall2_app. Qed.

Lemma regions_close h (cs : list col) b p hs : Forall (fun c => Forall (fun x => 0 <= x) (strengths c)) cs ->
  Forall2 shown_as b (boundaries h (map fst cs)) -> Forall2 shown_as p (map (fun c => total (strengths c)) cs) -> Forall2 (shows_column h) hs cs ->
  Forall2 close_region (concat (map (fun rc => with_radius (fst rc) (snd rc)) (combine (combine (bins b) (map (fun x => x / total p) p)) hs)))
    (regions h (total (map (fun c => total (strengths c)) cs)) cs).
Proof.
  intros N Fb Fp Fh. apply bins_close in Fb. unfold regions.
  set (W := total (map (fun c => total (strengths c)) cs)).
  assert (Np : Forall (fun x => 0 <= x) (map (fun c => total (strengths c)) cs)).
  { apply Forall_map. eapply Forall_impl; [|exact N]. cbv beta. intros c Hc. clear - Hc. induction Hc; cbn; lra. }
  destruct (shown_total _ _ Fp Np) as [Bt _]. fold W in Bt. set (W' := total p) in *.
  assert (Le : forall c, In c cs -> total (strengths c) <= W).
  { intros c Hc. apply total_ge_in; [exact Np|]. apply in_map_iff. eauto. }
  clearbody W W'. clear Np. apply Forall2_concat.
  revert Fb. generalize (bins (boundaries h (map fst cs))) as eb, (bins b) as bb. clear b.
  revert p hs Fp Fh. induction cs as [|c cs IH]; intros p hs Fp Fh eb bb Fb.
  { inversion Fp; subst. inversion Fh; subst. cbn [map]. destruct bb, eb; constructor. }
  cbn [map] in Fp. inversion Fp as [|P' ? p1 ? HP Fp1]; subst. inversion Fh as [|hc ? hs1 ? Hc Fh1]; subst.
  destruct Fb as [|rb re bb eb Hb Fb]; [constructor|]. cbn [map combine]. constructor; [|apply IH; try assumption; [exact (Forall_inv_tail N)|intros; apply Le; now right]].
  destruct Hc as (b & q & -> & Fzb & Fq). apply bins_close in Fzb. cbn [fst snd]. unfold with_radius. cbn [fst snd].
  pose proof (Forall_inv N) as Nc. cbv beta in Nc. destruct (shown_total _ _ Fq Nc) as [Bq Pc]. pose proof (shown_bounds _ _ Pc HP) as BP. set (Q' := total q) in *. specialize (Le c (or_introl eq_refl)).
  assert (In1 : forall x, In x (strengths c) -> x <= total (strengths c)) by (intros x Hx; now apply total_ge_in).
  set (P := total (strengths c)) in *. clearbody P Q'. clear - Hb Fzb Fq BP Bq Bt Le In1 Nc Pc HP.
  revert Fzb. generalize (bins b) as zb, (bins (boundaries h (heights c))) as ze. induction Fq as [|q' s q ss Hq Fq IH]; intros zb ze Fz.
  { destruct zb, ze; constructor. }
  destruct Fz as [|z1 z2 zb ze Hz Fz]; [constructor|]. cbn [map combine]. constructor; [|apply IH; [exact (Forall_inv_tail Nc)|intros; apply In1; now right|exact Fz]].
  split; [exact Hb|]. split; [exact Hz|]. cbn [fst snd]. pose proof (Forall_inv Nc) as Hs. cbv beta in Hs. destruct (Rle_lt_or_eq_dec 0 s Hs) as [Ps| <-].
  - apply (product_close P P' W W' s q' Q'); try assumption; [split; [exact Ps|apply In1; now left]|now apply shown_bounds].
  - apply shown_zero in Hq. subst q'. unfold close. replace (P' / W' * (0 / Q') - 0 / W) with 0 by (unfold Rdiv; ring). replace (0 / W) with 0 by (unfold Rdiv; ring). rewrite Rabs_R0. lra.
Qed.
