(** C55, C56, C60: text wrapping and numbers of SDEF cards. *)
From Coq Require Import Ascii String List Bool Arith ZArith Lia.
From Verif Require Import Base TextWrap SpecText TextProofs Format SpecFormat FormatProofs SpecError ErrorProofs.

(** C55: a word that can stand on a card and fits on a line. *)
Definition card_word (width : nat) (w : text) : Prop := plain_word w /\ no_hyphen_break w /\ (length w <= width)%nat.
(** A card is not a comment. *)
Definition card (width : nat) (ws : list text) : Prop :=
  Forall (card_word width) ws /\ exists w r, ws = w :: r /\ w <> ["C"%char] /\ w <> ["c"%char].

Lemma card_reads ws indent width : card width ws -> (6 <= indent)%nat ->
  exists t, text_wrap (join [space] ws) indent width 1 = Ok t /\
    (forall more cards, fold_left add_line (lines (t ++ more)) cards = fold_left add_line (lines more) (cards ++ [ws])) /\
    (forall l r, lines t = l :: r -> (length l <= width)%nat /\ Forall (fun l' => (length l' <= indent + width)%nat) r) /\ lines t <> [].
Proof.
  intros [F (w & r & -> & N)] I. apply wrap_reads; [discriminate| | | |exact I|].
  - eapply Forall_impl; [|exact F]. now intros a (H & _).
  - eapply Forall_impl; [|exact F]. now intros a (_ & H & _).
  - eapply Forall_impl; [|exact F]. now intros a (_ & _ & H).
  - intros w' r' E. injection E as <- <-. exact N.
Qed.

Theorem C55_card_survives_wrapping : forall ws indent width, card width ws -> (6 <= indent)%nat ->
  exists t, text_wrap (join [space] ws) indent width 1 = Ok t /\ read_deck t = [ws].
Proof.
  intros ws indent width C I. destruct (card_reads ws indent width C I) as (t & E & R & _). exists t. split; [exact E|].
  unfold read_deck. specialize (R [] []). rewrite app_nil_r in R. exact R.
Qed.
Print Assumptions C55_card_survives_wrapping.

Theorem C55_file_of_cards : forall cards : list (list text * nat * nat),
  Forall (fun c => let '(ws, indent, width) := c in card width ws /\ (6 <= indent)%nat) cards ->
  exists ts, Forall2 (fun c t => let '(ws, indent, width) := c in text_wrap (join [space] ws) indent width 1 = Ok t) cards ts /\
    read_deck (concat ts) = map (fun c => fst (fst c)) cards.
Proof.
  intros cards H. assert (G : exists ts, Forall2 (fun c t => let '(ws, indent, width) := c in text_wrap (join [space] ws) indent width 1 = Ok t) cards ts /\
    forall acc, fold_left add_line (lines (concat ts)) acc = acc ++ map (fun c => fst (fst c)) cards).
  { induction H as [|[[ws indent] width] cards [C I] _ IH]; [exists []; split; [constructor|]; intro acc; cbn; now rewrite app_nil_r|].
    destruct IH as (ts & F & R). destruct (card_reads ws indent width C I) as (t & E & Rt & _). exists (t :: ts). split; [constructor; assumption|].
    intro acc. cbn [concat map fst]. rewrite Rt, R, <- app_assoc. reflexivity. }
  destruct G as (ts & F & R). exists ts. split; [exact F|]. apply (R []).
Qed.
Print Assumptions C55_file_of_cards.

Theorem C55_small_indent_rejected : forall t indent width n, (indent < 6)%nat -> text_wrap t indent width n = Err EValue.
Proof. intros t indent width n H. unfold text_wrap. destruct (Nat.ltb_spec indent 6); [reflexivity|lia]. Qed.
Print Assumptions C55_small_indent_rejected.

(** A card whose words do not all fit on a line is changed: a word of 81 characters becomes two. *)
Theorem C55_long_word_refuted : exists w t, plain_word w /\ no_hyphen_break w /\ length w = 81%nat /\
  text_wrap (join [space] [txt "SI3"; w]) 6 80 1 = Ok t /\ read_deck t <> [[txt "SI3"; w]].
Proof.
  exists (repeat "1"%char 81). eexists. split; [|split; [|split; [|split]]].
  - split; [discriminate|]. cbn. repeat (constructor; [split; [cbv; lia|discriminate]|]). constructor.
  - apply minus_signs_ok. cbn. repeat split; discriminate.
  - reflexivity.
  - vm_compute. reflexivity.
  - intro H. vm_compute in H. discriminate.
Qed.
Print Assumptions C55_long_word_refuted.

(** A hyphen between a letter and a digit is no break point. *)
Example C55_digit_hyphen : no_hyphen_break (txt "5-fold") /\ no_hyphen_break (txt "1.0e-05") /\ ~ no_hyphen_break (txt "my-source").
Proof.
  assert (L : forall c, letter c <-> is_letter c = true).
  { intro c. split; [|apply is_letter_spec]. unfold letter, is_letter, between. intro H. apply orb_true_iff. rewrite orb_true_iff, !andb_true_iff, !Nat.leb_le, Ascii.eqb_eq. tauto. }
  split; [|split].
  - cbn. repeat split; try discriminate. intros _. rewrite L. discriminate.
  - apply minus_signs_ok. cbn. repeat split; try discriminate; intros; cbv; lia.
  - intros (_ & _ & (H & _)). destruct (H eq_refl) as [_ H1]. cbn in H1. rewrite !L in H1. now apply H1.
Qed.

(** So is a card with a hyphen between letters: the word can be broken after the hyphen. *)
Theorem C55_hyphenated_word_refuted : exists ws t, Forall plain_word ws /\ Forall (fun w : text => (length w <= 80)%nat) ws /\
  text_wrap (join [space] ws) 6 80 1 = Ok t /\ read_deck t <> [ws].
Proof.
  exists [txt "FILES"; repeat "x"%char 66; txt "my-source"]. eexists. split; [|split; [|split; [vm_compute; reflexivity|]]].
  - repeat (constructor; [split; [discriminate|cbn; repeat (constructor; [split; [cbv; lia|discriminate]|]); constructor]|]). constructor.
  - cbn. repeat (constructor; [cbn; lia|]). constructor.
  - intro H. vm_compute in H. discriminate.
Qed.
Print Assumptions C55_hyphenated_word_refuted.

(** Whatever the text, no character other than white space is lost, added or moved. *)
Theorem C55_any_text : forall t indent width n, (6 <= indent)%nat -> (1 <= width)%nat ->
  exists t', text_wrap t indent width n = Ok t' /\ ink t' = ink t.
Proof. intros t indent width n I W1. destruct (text_wrap_any t indent width n I W1) as (t' & E & Ik & _). eauto. Qed.
Print Assumptions C55_any_text.
(** It is refused exactly if the continuation indent is less than 6 or no line can hold a character. *)
Theorem C55_rejected : forall t indent width n,
  text_wrap t indent width n = Err EValue <-> (indent < 6)%nat \/ width = 0%nat.
Proof.
  intros t indent width n. split.
  - intro E. destruct (Nat.lt_ge_cases indent 6) as [L|L]; [now left|]. destruct width as [|w]; [now right|].
    destruct (C55_any_text t indent (S w) n L ltac:(lia)) as (t' & E' & _). congruence.
  - intros [L|L]; unfold text_wrap; [now rewrite (proj2 (Nat.ltb_lt _ _) L)|]. rewrite L. destruct (indent <? 6)%nat; reflexivity.
Qed.
Print Assumptions C55_rejected.

(** C56: line lengths. *)
Theorem C56_any_text : forall t indent width n t', (6 <= indent)%nat -> (1 <= width)%nat -> text_wrap t indent width n = Ok t' ->
  Forall (fun l : text => (length l <= width + indent)%nat) (lines t').
Proof.
  intros t indent width n t' I W1 E. destruct (text_wrap_any t indent width n I W1) as (u & E' & _ & S0). pose proof (eq_trans (eq_sym E') E) as Q. injection Q as Q. rewrite <- Q.
  apply short_lines. rewrite Nat.add_comm. exact S0.
Qed.
Print Assumptions C56_any_text.

Theorem C56_line_lengths : forall ws indent width t l r, card width ws -> (6 <= indent)%nat ->
  text_wrap (join [space] ws) indent width 1 = Ok t -> lines t = l :: r ->
  (length l <= width)%nat /\ Forall (fun l' => (length l' <= width + indent)%nat) r.
Proof.
  intros ws indent width t l r C I E L. destruct (card_reads ws indent width C I) as (t' & E' & _ & B & _). rewrite E in E'. injection E' as <-.
  destruct (B l r L) as [B1 B2]. split; [exact B1|]. eapply Forall_impl; [|exact B2]. cbv beta. intros. lia.
Qed.
Print Assumptions C56_line_lengths.

(** The documented bound ("lines never longer than max_length") fails for an ordinary card. *)
Definition negative_heights : list text := txt "SI5" :: txt "H" :: repeat (txt "-1.00000e+00") 12.
Lemma negative_heights_card : card 80 negative_heights.
Proof.
  assert (P : forall w, In w [txt "SI5"; txt "H"; txt "-1.00000e+00"] -> card_word 80 w).
  { intros w [<-|[<-|[<-|[]]]]; (split; [split; [discriminate|cbn; repeat (constructor; [split; [cbv; lia|discriminate]|]); constructor]|]);
      (split; [apply minus_signs_ok; cbn; repeat split; try discriminate; intros; cbv; lia|cbn; lia]). }
  split; [|do 2 eexists; split; [reflexivity|split; discriminate]].
  constructor; [apply P; cbn; auto|]. constructor; [apply P; cbn; auto|]. apply Forall_forall. intros x Hx. apply repeat_spec in Hx. subst x. apply P. cbn. auto.
Qed.
Theorem C56_documented_bound_refuted : exists t l, text_wrap (join [space] negative_heights) 6 80 1 = Ok t /\ In l (lines t) /\ length l = 83%nat.
Proof.
  eexists. eexists. split; [vm_compute; reflexivity|]. split; [vm_compute; right; left; reflexivity|]. reflexivity.
Qed.
Print Assumptions C56_documented_bound_refuted.
Example C55_C56_example : card 80 negative_heights /\ exists t, text_wrap (join [space] negative_heights) 6 80 1 = Ok t /\ read_deck t = [negative_heights].
Proof. split; [apply negative_heights_card|]. eexists. split; [vm_compute; reflexivity|]. vm_compute. reflexivity. Qed.

(** C60: numbers. *)
Theorem C60_form : forall p x, exists sign d fraction es exponent,
  fmt_e p x = sign ++ [d] ++ txt "." ++ fraction ++ txt "e" ++ [es] ++ exponent /\
  (sign = (if Rlt_dec x 0 then txt "-" else [])) /\ digit_char d /\ (d = "0"%char <-> x = 0) /\ Forall digit_char fraction /\ length fraction = p /\
  (es = "+"%char \/ es = "-"%char) /\ Forall digit_char exponent /\ (2 <= length exponent)%nat.
Proof.
  intros p x. unfold fmt_e. destruct (if Reqb x 0 then (0, 0)%Z else mantissa p (Rabs x)) as [d e] eqn:Em.
  assert (Hd : (0 <= d / 10 ^ Z.of_nat p < 10)%Z /\ ((d / 10 ^ Z.of_nat p)%Z = 0%Z <-> x = 0)).
  { destruct (Reqb_spec x 0) as [E0|N0].
    - injection Em as <- <-. rewrite Z.div_0_l by lia. split; [lia|]. split; auto.
    - destruct (mantissa_bounds p _ d e (Rabs_pos_lt x N0) Em) as [Bd _]. assert (P : (0 < 10 ^ Z.of_nat p)%Z) by (apply Z.pow_pos_nonneg; lia). split.
      + split; [apply Z.div_pos; lia|]. apply Z.div_lt_upper_bound; [lia|]. rewrite Z.pow_add_r in Bd by lia. lia.
      + split; [|intro; contradiction]. intro Z0. exfalso. assert (1 <= d / 10 ^ Z.of_nat p)%Z by (apply Z.div_le_lower_bound; lia). lia. }
  exists (if Rltb x 0 then txt "-" else []), (digit (d / 10 ^ Z.of_nat p)), (last_digits p d), (if (e <? 0)%Z then "-"%char else "+"%char),
    (if (Z.abs e <? 100)%Z then last_digits 2 (Z.abs e) else show_Z (Z.abs e)).
  split; [unfold show_exponent; now destruct (e <? 0)%Z|]. split; [unfold Rltb; now destruct (Rlt_dec x 0)|].
  destruct Hd as [Hd Hz]. split; [now apply digit_is_digit|]. split.
  - rewrite <- Hz. revert Hd. generalize (d / 10 ^ Z.of_nat p)%Z. intros q Hq.
    apply (digit_cases (fun q => digit q = "0"%char <-> q = 0%Z) q); try exact Hq; split; intro H; try reflexivity; try discriminate; cbv in H; discriminate.
  - split; [apply last_digits_digits|]. split; [apply last_digits_length|]. split; [destruct (e <? 0)%Z; auto|]. split; [apply exponent_digits|].
    destruct (Z.ltb_spec (Z.abs e) 100); [now rewrite last_digits_length|].
    unfold show_Z. set (f := Z.to_nat (Z.log2 (Z.abs e))). cbn [show_fuel]. destruct (Z.ltb_spec (Z.abs e) 10); [lia|]. rewrite app_length. cbn [length].
    assert ((0 < f)%nat). { unfold f. assert (0 < Z.log2 (Z.abs e))%Z by (apply Z.log2_pos; lia). lia. }
    destruct f as [|f']; [lia|]. cbn [show_fuel]. destruct (Z.abs e / 10 <? 10)%Z; [cbn; lia|]. rewrite app_length. cbn. lia.
Qed.
Print Assumptions C60_form.

Theorem C60_reads_back : forall x, exists v, read_number (fmt_e 5 x) = Some v /\ Rabs (v - x) <= 5e-6 * Rabs x /\
  (0 < v <-> 0 < x) /\ (v < 0 <-> x < 0) /\ (v = 0 <-> x = 0).
Proof.
  intro x. exists (shown 5 x). destruct (fmt_e_facts 5 x) as (R & _). pose proof (shown_error 5 x) as E. destruct (shown_sign 5 x) as [P N]. split; [exact R|].
  split; [|split; [exact P|split; [exact N|]]].
  - replace (5e-6 * Rabs x) with (Rabs x * (5 / 10 ^ 6)); [exact E|]. field_simplify; lra.
  - split; intro H0; [|subst x; unfold shown; now rewrite Reqb_refl]. destruct (Rtotal_order x 0) as [H|[H|H]]; [apply N in H; lra|exact H|apply P in H; lra].
Qed.
Print Assumptions C60_reads_back.

Theorem C60_order_kept : forall p x y v w, x <= y -> read_number (fmt_e p x) = Some v -> read_number (fmt_e p y) = Some w -> v <= w.
Proof.
  intros p x y v w H Hv Hw. destruct (fmt_e_facts p x) as (Rx & _), (fmt_e_facts p y) as (Ry & _). rewrite Rx in Hv. rewrite Ry in Hw. injection Hv as <-. injection Hw as <-. now apply shown_mono.
Qed.
Print Assumptions C60_order_kept.

(** Numbers with p + 1 significant digits are written exactly. *)
Theorem C60_exact_digits : forall p d k, (10 ^ Z.of_nat p <= Z.abs d < 10 ^ (Z.of_nat p + 1))%Z ->
  read_number (fmt_e p (IZR d * powerRZ 10 k)) = Some (IZR d * powerRZ 10 k).
Proof.
  intros p d k B. destruct (fmt_e_facts p (IZR d * powerRZ 10 k)) as (R & _). rewrite R. f_equal. clear R.
  assert (P := pow10_pos k). assert (Pp : (0 < 10 ^ Z.of_nat p)%Z) by (apply Z.pow_pos_nonneg; lia).
  assert (M : mval p (IZR (Z.abs d) * powerRZ 10 k) = IZR (Z.abs d) * powerRZ 10 k).
  { assert (Ex : exponent10 (IZR (Z.abs d) * powerRZ 10 k) = (Z.of_nat p + k)%Z).
    { apply exponent10_unique. destruct B as [B1 B2]. apply IZR_le in B1. apply IZR_lt in B2. rewrite <- pow10_nat in B1. replace (Z.of_nat p + 1)%Z with (Z.of_nat (p + 1)) in B2 by lia. rewrite <- pow10_nat in B2.
      split; [rewrite pow10_add; apply Rmult_le_compat_r; lra|]. replace (Z.of_nat p + k + 1)%Z with (Z.of_nat (p + 1) + k)%Z by lia. rewrite pow10_add. apply Rmult_lt_compat_r; lra. }
    rewrite mval_raw. unfold mraw. rewrite Ex. rewrite Rmult_assoc, <- pow10_add. replace (k + (Z.of_nat p - (Z.of_nat p + k)))%Z with 0%Z by lia.
    cbn [powerRZ]. rewrite Rmult_1_r, round_even_IZR. f_equal. f_equal. lia. }
  unfold shown. assert (D0 : d <> 0%Z) by lia. assert (X0 : IZR d * powerRZ 10 k <> 0) by (apply Rmult_integral_contrapositive; split; [now apply IZR_neq|lra]).
  destruct (Reqb_spec (IZR d * powerRZ 10 k) 0); [contradiction|]. destruct (Rltb_spec (IZR d * powerRZ 10 k) 0) as [L|G].
  - assert (Hn : (d < 0)%Z). { destruct (Z.lt_trichotomy d 0) as [Q|[Q|Q]]; [exact Q|lia|]. apply IZR_lt in Q. pose proof (Rmult_lt_0_compat _ _ Q P). lra. }
    replace (- (IZR d * powerRZ 10 k)) with (IZR (Z.abs d) * powerRZ 10 k); [rewrite M|]; rewrite Z.abs_neq by lia; rewrite opp_IZR; ring.
  - assert (Hp : (0 < d)%Z). { destruct (Z.lt_trichotomy d 0) as [Q|[Q|Q]]; [|lia|exact Q]. apply IZR_lt in Q. pose proof (Rmult_lt_0_compat (- IZR d) _ ltac:(lra) P). lra. }
    rewrite Z.abs_eq in M by lia. exact M.
Qed.
Print Assumptions C60_exact_digits.
Example C60_example : (10 ^ Z.of_nat 5 <= Z.abs (-123456) < 10 ^ (Z.of_nat 5 + 1))%Z /\ read_number (txt "-1.23456e-02") = Some (-1 * (1 + 23456 / 10 ^ 5) * powerRZ 10 (-2)).
Proof. split; [cbn; lia|]. reflexivity. Qed.
