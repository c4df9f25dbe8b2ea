(** Lemmas for the SDEF file properties. *)
From Coq Require Import Ascii String List Bool Arith ZArith Lia.
From Verif Require Import Base Reactions Space Source SpecSource SourceProofs SpectraData Energy SpecEnergy TextWrap SpecText TextProofs Format SpecFormat FormatProofs P_Text P_Energy Mcnp SpecMcnp.

(** ** Columns *)
Definition rad (l : list cell) : list R := map (fun c => fst (fst c)) l.
Definition hts (l : list cell) : list R := map (fun c => snd (fst c)) l.
Definition sts (l : list cell) : list R := map snd l.

Lemma columns_step r z s l : columns ((r, z, s) :: l) =
  match columns l with (r', c0) :: rest => if Req_EM_T r r' then (r, (z, s) :: c0) :: rest else (r, [(z, s)]) :: (r', c0) :: rest | [] => [(r, [(z, s)])] end.
Proof. reflexivity. Qed.
Lemma columns_cons c l : exists k rest, columns (c :: l) = (fst (fst c), k) :: rest /\ k <> [].
Proof.
  destruct c as [[r z] s]. cbn [columns fst]. destruct (columns l) as [|[r' k] rest]; [eexists _, _; split; [reflexivity|discriminate]|].
  destruct (Req_EM_T r r'); eexists _, _; (split; [reflexivity|discriminate]).
Qed.
Lemma columns_nonempty l : Forall (fun c : col => snd c <> []) (columns l).
Proof.
  induction l as [|[[r z] s] l IH]; cbn [columns]; [constructor|]. destruct (columns l) as [|[r' k] rest]; [constructor; [discriminate|constructor]|].
  destruct (Req_EM_T r r'); constructor; try discriminate; [exact (Forall_inv_tail IH)|exact IH].
Qed.
Lemma columns_nil l : columns l = [] -> l = [].
Proof. destruct l as [|c l]; [auto|]. destruct (columns_cons c l) as (k & rest & -> & _). discriminate. Qed.
Lemma columns_heights l : concat (map heights (columns l)) = hts l.
Proof.
  induction l as [|[[r z] s] l IH]; [reflexivity|]. cbn [columns hts map fst snd]. fold (hts l). rewrite <- IH. destruct (columns l) as [|[r' k] rest]; [reflexivity|]. destruct (Req_EM_T r r'); reflexivity.
Qed.
Lemma columns_strengths l : concat (map strengths (columns l)) = sts l.
Proof.
  induction l as [|[[r z] s] l IH]; [reflexivity|]. cbn [columns sts map fst snd]. fold (sts l). rewrite <- IH. destruct (columns l) as [|[r' k] rest]; [reflexivity|]. destruct (Req_EM_T r r'); reflexivity.
Qed.

(** Radii of the columns of cells listed by radius. *)
Fixpoint strictly (l : list R) : Prop := match l with a :: ((b :: _) as l') => a < b /\ strictly l' | _ => True end.
Lemma columns_radii l : by_radius (rad l) -> strictly (map fst (columns l)) /\ np_unique (rad l) = map fst (columns l).
Proof.
  induction l as [|[[r z] s] l IH]; [intros _; split; reflexivity || exact I|]. intro B. cbn [rad map fst] in *. fold (rad l) in *.
  destruct l as [|c l]; [split; [exact I|reflexivity]|]. assert (B' : by_radius (rad (c :: l))) by (destruct B as [_ B]; exact B). destruct (IH B') as [S U].
  assert (Hle : r <= fst (fst c)) by (destruct B as [B _]; exact B).
  change (np_unique (r :: rad (c :: l))) with (insert_unique r (np_unique (rad (c :: l)))). rewrite U.
  rewrite columns_step.
  destruct (columns_cons c l) as (k & rest & E & _). rewrite E in *. cbn [map fst] in *. cbn [insert_unique].
  destruct (Req_EM_T r (fst (fst c))) as [Eq|Ne].
  - destruct (Rltb_spec r (fst (fst c))); [lra|]. destruct (Reqb_spec r (fst (fst c))); [|contradiction]. cbn [map fst]. rewrite Eq. split; [exact S|reflexivity].
  - destruct (Rltb_spec r (fst (fst c))); [|lra]. cbn [map fst]. split; [split; [assumption|exact S]|reflexivity].
Qed.

(** The ends of the columns. *)
Fixpoint ends (i : nat) (lens : list nat) : list Z :=
  match lens with [] => [] | n :: ns => (Z.of_nat (i + n) - 1)%Z :: ends (i + n) ns end.
Lemma changes_ends l : forall i, l <> [] ->
  map Z.of_nat (changes_from i (rad l)) ++ [(Z.of_nat (i + length l) - 1)%Z] = ends i (map (fun c : col => length (snd c)) (columns l)).
Proof.
  induction l as [|[[r z] s] l IH]; intros i N; [congruence|]. destruct l as [|c l]; [cbn; f_equal; lia|].
  specialize (IH (S i) ltac:(discriminate)). destruct (columns_cons c l) as (k & rest & E & _).
  rewrite columns_step.
  rewrite E in *. change (rad ((r, z, s) :: c :: l)) with (r :: fst (fst c) :: rad l). change (rad (c :: l)) with (fst (fst c) :: rad l) in IH.
  change (changes_from i (r :: fst (fst c) :: rad l)) with (if Reqb (fst (fst c)) r then changes_from (S i) (fst (fst c) :: rad l) else i :: changes_from (S i) (fst (fst c) :: rad l)).
  cbn [length] in *. rewrite Nat.add_succ_r. change (S (i + S (length l))) with (S i + S (length l))%nat.
  destruct (Req_EM_T r (fst (fst c))) as [Eq|Ne].
  - destruct (Reqb_spec (fst (fst c)) r); [|congruence]. rewrite IH. cbn [map snd ends length]. replace (i + S (length k))%nat with (S i + length k)%nat by lia. reflexivity.
  - destruct (Reqb_spec (fst (fst c)) r); [congruence|]. cbn [map app]. rewrite IH. cbn [map snd ends length]. replace (i + 1)%nat with (S i) by lia. f_equal. lia.
Qed.
Fixpoint segs (i : nat) (lens : list nat) : list (Z * Z) :=
  match lens with [] => [] | n :: ns => ((Z.of_nat i - 1)%Z, (Z.of_nat (i + n) - 1)%Z) :: segs (i + n) ns end.
Lemma ranges_ends lens : forall i, ranges ((Z.of_nat i - 1)%Z :: ends i lens) = segs i lens.
Proof.
  induction lens as [|n ns IH]; intro i; [reflexivity|]. cbn [ends segs].
  change (ranges ((Z.of_nat i - 1)%Z :: (Z.of_nat (i + n) - 1)%Z :: ends (i + n) ns)) with (((Z.of_nat i - 1)%Z, (Z.of_nat (i + n) - 1)%Z) :: ranges ((Z.of_nat (i + n) - 1)%Z :: ends (i + n) ns)).
  now rewrite IH.
Qed.
Lemma ranges_z_ints l : l <> [] -> ranges (z_ints (rad l)) = segs 0 (map (fun c : col => length (snd c)) (columns l)).
Proof.
  intro N. unfold z_ints. cbn [app]. replace (length (rad l)) with (0 + length l)%nat by (unfold rad; now rewrite map_length). rewrite (changes_ends l 0 N).
  apply (ranges_ends _ 0).
Qed.
Lemma changes_scale l i : changes_from i (map m_to_cm l) = changes_from i l.
Proof.
  revert i; induction l as [|a l IH]; intro i; [reflexivity|]. destruct l as [|b l]; [reflexivity|].
  change (changes_from i (map m_to_cm (a :: b :: l))) with (if Reqb (m_to_cm b) (m_to_cm a) then changes_from (S i) (map m_to_cm (b :: l)) else i :: changes_from (S i) (map m_to_cm (b :: l))).
  rewrite IH. cbn [changes_from]. unfold m_to_cm. destruct (Reqb_spec (b * 100) (a * 100)), (Reqb_spec b a); try reflexivity; exfalso; lra.
Qed.
Lemma z_ints_scale l : z_ints (map m_to_cm l) = z_ints l.
Proof. unfold z_ints. now rewrite changes_scale, map_length. Qed.
Lemma insert_unique_scale x l : insert_unique (m_to_cm x) (map m_to_cm l) = map m_to_cm (insert_unique x l).
Proof.
  induction l as [|y l IH]; [reflexivity|]. cbn [map insert_unique]. unfold m_to_cm in *.
  destruct (Rltb_spec (x * 100) (y * 100)), (Rltb_spec x y); try (exfalso; lra); [reflexivity|].
  destruct (Reqb_spec (x * 100) (y * 100)), (Reqb_spec x y); try (exfalso; lra); [reflexivity|]. cbn [map]. now rewrite IH.
Qed.
Lemma np_unique_scale l : np_unique (map m_to_cm l) = map m_to_cm (np_unique l).
Proof. induction l as [|x l IH]; [reflexivity|]. cbn. fold (np_unique (map m_to_cm l)) (np_unique l). now rewrite IH, insert_unique_scale. Qed.

Lemma slice_mid {A} (pre c post : list A) : slice (pre ++ c ++ post) (length pre) (length pre + length c) = c.
Proof.
  unfold slice. rewrite skipn_app, skipn_all, Nat.sub_diag. cbn [app skipn]. replace (length pre + length c - length pre)%nat with (length c) by lia.
  rewrite firstn_app, firstn_all, Nat.sub_diag. cbn. apply app_nil_r.
Qed.
Lemma column_mid {A} (pre c post : list A) i : i = length pre -> column (pre ++ c ++ post) ((Z.of_nat i - 1)%Z, (Z.of_nat (i + length c) - 1)%Z) = c.
Proof.
  intros ->. unfold column. cbn [fst snd]. replace (Z.to_nat (Z.of_nat (length pre) - 1 + 1)) with (length pre) by lia.
  replace (Z.to_nat (Z.of_nat (length pre + length c) - 1 + 1)) with (length pre + length c)%nat by lia. apply slice_mid.
Qed.
Lemma column_segs {A} (parts : list (list A)) : forall pre, map (column (pre ++ concat parts)) (segs (length pre) (map (@length A) parts)) = parts.
Proof.
  induction parts as [|c parts IH]; intro pre; [reflexivity|]. cbn [map segs concat]. rewrite column_mid by reflexivity. f_equal.
  rewrite app_assoc. replace (length pre + length c)%nat with (length (pre ++ c)) by now rewrite app_length. apply IH.
Qed.
Lemma column_map {A B} (f : A -> B) l ab : column (map f l) ab = map f (column l ab).
Proof. unfold column, slice. now rewrite skipn_map, firstn_map. Qed.

(** ** Reading pieces of a file *)
Definition reads (t : text) (ws : list (list text)) : Prop :=
  forall more cards, fold_left add_line (lines (t ++ more)) cards = fold_left add_line (lines more) (cards ++ ws).
Lemma reads_deck t ws : reads t ws -> read_deck t = ws.
Proof. intro H. specialize (H [] []). rewrite app_nil_r in H. exact H. Qed.
Lemma reads_nil : reads [] [].
Proof. intros more cards. cbn. now rewrite app_nil_r. Qed.
Lemma reads_app t1 t2 w1 w2 : reads t1 w1 -> reads t2 w2 -> reads (t1 ++ t2) (w1 ++ w2).
Proof. intros H1 H2 more cards. rewrite <- app_assoc, H1, H2. now rewrite app_assoc. Qed.
Lemma reads_concat {A} (f : A -> text) (g : A -> list (list text)) l : (forall a, In a l -> reads (f a) (g a)) -> reads (concat (map f l)) (concat (map g l)).
Proof.
  induction l as [|a l IH]; intro H; [apply reads_nil|]. cbn [map concat]. apply reads_app; [apply H; now left|]. apply IH. intros. apply H. now right.
Qed.
Lemma reads_comment l : no_nl l -> comment_line l = true -> reads (line l) [].
Proof.
  intros N C more cards. unfold line. rewrite <- app_assoc. cbn [app]. rewrite lines_line by exact N. cbn [fold_left]. unfold add_line at 2. rewrite C. now rewrite app_nil_r.
Qed.
Lemma reads_comment_then l t ws : no_nl l -> comment_line l = true -> reads t ws -> reads (line l ++ t) ws.
Proof. intros N C H. change ws with ([] ++ ws). apply reads_app; [now apply reads_comment|exact H]. Qed.
(** A new card on one line. *)
Lemma reads_line l ws : no_nl l -> comment_line l = false -> continuation l = false -> words (before_dollar l) = ws -> reads (line l) [ws].
Proof.
  intros N C K E more cards. unfold line. rewrite <- app_assoc. cbn [app]. rewrite lines_line by exact N. cbn [fold_left]. unfold add_line at 2. rewrite C, K, E. reflexivity.
Qed.
(** A continuation line after a piece that ends with a card. *)
Lemma reads_continue t w0 l w : reads t [w0] -> no_nl l -> comment_line l = false -> continuation l = true -> words (before_dollar l) = w -> reads (t ++ line l) [w0 ++ w].
Proof.
  intros H N C K E more cards. unfold line. rewrite <- !app_assoc. rewrite H. cbn [app]. rewrite lines_line by exact N. cbn [fold_left]. unfold add_line at 2. rewrite C, K, E.
  rewrite rev_app_distr. cbn [rev app]. now rewrite rev_involutive.
Qed.
Lemma no_nl_txt s : forallb (fun c => negb (is_newline c)) (txt s) = true -> no_nl (txt s).
Proof. intro H. apply Forall_forall. intros c Hc. rewrite forallb_forall in H. apply negb_true_iff. now apply H. Qed.

Lemma join_cons w l : l <> [] -> join [space] (w :: l) = w ++ space :: join [space] l.
Proof. destruct l; [congruence|reflexivity]. Qed.
Lemma words_join ws : Forall plain_word ws -> words (join [space] ws) = ws.
Proof.
  intro P. rewrite <- concat_spaced. destruct (spaced_good ws P) as (G & A & Wf & _). rewrite words_concat by assumption. exact Wf.
Qed.
Lemma join_chars ws : Forall plain_word ws -> Forall (fun c => c = space \/ plain c) (join [space] ws).
Proof.
  induction 1 as [|w ws [_ Hw] Hws IH]; [constructor|]. assert (Hw' : Forall (fun c => c = space \/ plain c) w) by (eapply Forall_impl; [|exact Hw]; auto).
  destruct ws as [|v ws]; [exact Hw'|]. rewrite join_cons by discriminate. apply Forall_app. split; [exact Hw'|]. constructor; [now left|exact IH].
Qed.
Lemma reads_join_line ws w0 r : ws = w0 :: r -> r <> [] -> Forall plain_word ws -> w0 <> ["C"%char] -> w0 <> ["c"%char] -> reads (line (join [space] ws)) [ws].
Proof.
  intros -> Nr P N1 N2. assert (Ch := join_chars _ P). assert (P0 := Forall_inv P). destruct w0 as [|c w0]; [destruct P0; congruence|].
  assert (Hc : is_blank c = false) by (destruct P0 as [_ P0]; apply plain_not_blank, (Forall_inv P0)).
  apply reads_line.
  - now apply no_nl_chars.
  - rewrite join_cons by exact Nr. cbn [app comment_line]. destruct (Ascii.eqb_spec c "C") as [-> |NC]; [|destruct (Ascii.eqb_spec c "c") as [-> |Nc]; [|reflexivity]]; cbn [orb andb].
    all: destruct w0 as [|x w0]; [congruence|]; cbn [app]; destruct P0 as [_ P0]; apply plain_not_blank, (Forall_inv (Forall_inv_tail P0)).
  - rewrite join_cons by exact Nr. unfold continuation. apply andb_false_iff. right. cbn [app firstn forallb]. destruct (Ascii.eqb_spec " " c); [subst c; discriminate|reflexivity].
  - rewrite before_dollar_plain by now apply chars_no_dollar. now apply words_join.
Qed.

(** A wrapped card. *)
Lemma reads_wrapped ws indent t : card 80 ws -> (6 <= indent)%nat -> text_wrap (join [space] ws) indent 80 1 = Ok t -> reads t [ws].
Proof. intros C I E. destruct (card_reads ws indent 80 C I) as (t' & E' & R & _). rewrite E in E'. injection E' as <-. exact R. Qed.
Lemma wraps ws indent : card 80 ws -> (6 <= indent)%nat -> exists t, text_wrap (join [space] ws) indent 80 1 = Ok t.
Proof. intros C I. destruct (card_reads ws indent 80 C I) as (t & E & _). eauto. Qed.
(** Wrapped numbers after a first line prefix: the T-T cards. *)
Lemma reads_prefixed k h ws indent : plain_word k -> plain_word h -> k <> ["C"%char] -> k <> ["c"%char] -> ws <> [] -> Forall (card_word 80) ws -> (6 <= indent)%nat ->
  exists t, text_wrap (join [space] ws) indent 80 1 = Ok t /\ reads ((k ++ space :: h ++ [space]) ++ t) [k :: h :: ws].
Proof.
  intros Pk Ph N1 N2 N F I.
  assert (P : Forall plain_word ws) by (eapply Forall_impl; [|exact F]; now intros a (H & _)).
  destruct (text_wrap_spec ws indent 80 1 N P ltac:(eapply Forall_impl; [|exact F]; now intros a (_ & H & _)) ltac:(eapply Forall_impl; [|exact F]; now intros a (_ & _ & H)) I) as (first & rest & E & Hw & Hl).
  eexists. split; [exact E|]. intros more cards.
  assert (Cf : Forall (fun l : text => Forall (fun c => c = space \/ plain c) l) (first :: rest)) by (eapply Forall_impl; [|exact Hl]; cbv beta; intros l (_ & _ & H); exact H).
  pose proof (Forall_inv Hl) as (_ & E1 & C1).
  set (pre := k ++ space :: h ++ [space]).
  assert (Hpre : Forall (fun c => c = space \/ plain c) pre).
  { unfold pre. apply Forall_app. split; [eapply Forall_impl; [|apply Pk]; auto|]. constructor; [now left|]. apply Forall_app. split; [eapply Forall_impl; [|apply Ph]; auto|]. repeat constructor. }
  assert (Shift : ((pre ++ card_text indent first rest ++ repeat newline 1) ++ more) = card_text indent (pre ++ first) rest ++ newline :: more).
  { unfold card_text. cbn [repeat]. rewrite <- !app_assoc. reflexivity. }
  rewrite Shift. apply read_card; [lia| | | |].
  - unfold pre. rewrite <- Hw. destruct Pk as [Nk Fk], Ph as [Nh Fh].
    assert (Sk : solid k = true) by (unfold solid; apply forallb_forall; intros c Hc; rewrite Forall_forall in Fk; now rewrite (plain_not_blank c (Fk c Hc))).
    assert (Sh : solid h = true) by (unfold solid; apply forallb_forall; intros c Hc; rewrite Forall_forall in Fh; now rewrite (plain_not_blank c (Fh c Hc))).
    assert (W1 : words ((k ++ space :: h ++ [space]) ++ first) = k :: h :: words first).
    { rewrite <- !app_assoc. cbn [app]. rewrite words_split, words_blank_head, (words_solid k Nk Sk) by reflexivity. rewrite <- app_assoc. cbn [app].
      rewrite words_split, words_blank_head, (words_solid h Nh Sh) by reflexivity. reflexivity. }
    rewrite W1. reflexivity.
  - destruct Pk as [Nk Fk]. destruct k as [|c k]; [congruence|]. split.
    + exists c, (k ++ space :: h ++ [space] ++ first). split; [unfold pre; cbn [app]; rewrite <- !app_assoc; cbn [app]; now rewrite <- app_assoc|apply plain_not_blank, (Forall_inv Fk)].
    + now apply edge_end.
  - unfold pre. destruct Pk as [Nk Fk]. destruct k as [|c k]; [congruence|]. cbn [app comment_line].
    destruct (Ascii.eqb_spec c "C") as [-> |NC]; [|destruct (Ascii.eqb_spec c "c") as [-> |Nc]; [|reflexivity]]; cbn [orb andb].
    all: destruct k as [|x k]; [congruence|]; cbn [app]; apply plain_not_blank, (Forall_inv (Forall_inv_tail Fk)).
  - constructor; [apply Forall_app; split; [exact Hpre|exact C1]|exact (Forall_inv_tail Cf)].
Qed.

(** ** Words of the cards *)
Definition item_word (i : item) : text :=
  match i with
  | Word s => txt s
  | Key s n => txt s ++ show_nat n
  | Num x => fmt_e 5 x
  | Num6 x => fmt_e 6 x
  | Nat n => show_nat n
  end.
Lemma item_word_reads i : reads_item i (item_word i).
Proof.
  destruct i; cbn [reads_item item_word]; [reflexivity| |apply fmt_e_shows|apply fmt_e_shows|apply show_nat_reads].
  eexists. split; [reflexivity|]. apply show_nat_reads.
Qed.
Lemma reads_card_words c : reads_card c (map item_word c).
Proof. induction c; constructor; [apply item_word_reads|assumption]. Qed.
Lemma fmt_card_word p x : (p <= 6)%nat -> double_range x -> card_word 80 (fmt_e p x).
Proof.
  intros Hp D. destruct (fmt_e_facts p x) as (_ & F & B & N). split; [now apply plain_num|]. split; [now apply minus_signs_ok|]. pose proof (fmt_e_length p x D). lia.
Qed.
Lemma show_nat_chars n : Forall digit_char (show_nat n) /\ show_nat n <> [].
Proof.
  split; [apply show_fuel_digits; lia|]. destruct (read_show_Z (Z.of_nat n) 0 0 [] ltac:(lia)) as (k & Hk & Hl & _). unfold show_nat. intro E. rewrite E in Hl. cbn in Hl. lia.
Qed.
Lemma show_nat_length n : (Z.of_nat n < 10 ^ 70)%Z -> (length (show_nat n) <= 70)%nat.
Proof. intro H. apply show_fuel_length. split; [lia|exact H]. Qed.
Lemma digits_plain l : Forall digit_char l -> Forall plain l.
Proof. apply Forall_impl. intros c H. apply num_char_plain. now left. Qed.
Definition good_item (i : item) : Prop := card_word 80 (item_word i).
Lemma num_good x : double_range x -> good_item (Num x).
Proof. intro H. apply fmt_card_word; [lia|exact H]. Qed.
Lemma num6_good x : double_range x -> good_item (Num6 x).
Proof. intro H. apply fmt_card_word; [lia|exact H]. Qed.
Lemma nat_good n : (Z.of_nat n < 10 ^ 70)%Z -> good_item (Nat n).
Proof.
  intro H. destruct (show_nat_chars n) as [D N]. split; [split; [exact N|now apply digits_plain]|]. split; [now apply minus_signs_ok, digits_head_no_break|]. pose proof (show_nat_length n H). cbn [item_word]. lia.
Qed.
Lemma key_good s n : (s = "SI" \/ s = "SP")%string -> (Z.of_nat n < 10 ^ 70)%Z -> good_item (Key s n).
Proof.
  intros Hs H. destruct (show_nat_chars n) as [D N]. pose proof (show_nat_length n H). unfold good_item. cbn [item_word].
  destruct Hs as [-> | ->]; cbn [txt list_ascii_of_string app]; (split; [split; [discriminate|repeat (constructor; [split; [cbv; lia|discriminate]|]); now apply digits_plain]|]);
    (split; [apply minus_signs_ok; cbn; repeat split; try discriminate; now apply digits_head_no_break|cbn [length]; lia]).
Qed.
(** Fixed words. *)
Definition word_check (s : string) : bool :=
  let w := txt s in
  negb (Nat.eqb (length w) 0) && forallb (fun c => (33 <=? nat_of_ascii c) && (nat_of_ascii c <=? 126) && negb (Ascii.eqb c "$") && negb (Ascii.eqb c "-"))%nat w && (length w <=? 80)%nat.
Lemma word_good s : word_check s = true -> good_item (Word s).
Proof.
  unfold word_check. intro H. apply andb_true_iff in H. destruct H as [H L]. apply andb_true_iff in H. destruct H as [N F]. apply Nat.leb_le in L. apply negb_true_iff, Nat.eqb_neq in N.
  assert (Ne : txt s <> []) by (intro E; rewrite E in N; cbn in N; lia). rewrite forallb_forall in F. split; [split; [exact Ne|]|split; [|exact L]].
  - apply Forall_forall. intros c Hc. specialize (F c Hc). apply andb_true_iff in F. destruct F as [F _]. apply andb_true_iff in F. destruct F as [F D]. apply andb_true_iff in F. destruct F as [F1 F2].
    apply Nat.leb_le in F1, F2. split; [lia|]. intros ->. discriminate.
  - apply minus_signs_ok. cbn [item_word]. clear L N Ne. induction (txt s) as [|c t IH]; [exact I|]. cbn. split; [|apply IH; intros; apply F; now right]. intros ->. specialize (F "-"%char (or_introl eq_refl)). discriminate.
Qed.

(** A card of items: wrapping succeeds and it reads back as the items. *)
Lemma wrap_items c i0 i1 r indent : c = i0 :: i1 :: r -> Forall good_item c -> item_word i0 <> ["C"%char] -> item_word i0 <> ["c"%char] -> (6 <= indent)%nat ->
  exists t, text_wrap (join [space] (map item_word c)) indent 80 1 = Ok t /\ reads t [map item_word c].
Proof.
  intros -> G N1 N2 I. assert (C : card 80 (map item_word (i0 :: i1 :: r))) by (split; [now apply Forall_map|do 2 eexists; split; [reflexivity|split; assumption]]).
  destruct (wraps _ indent C I) as [t E]. exists t. split; [exact E|]. now apply (reads_wrapped _ indent).
Qed.

(** ** Cards of the file *)
Lemma numbers_items l : numbers l = join [space] (map item_word (map Num l)).
Proof. unfold numbers. now rewrite map_map. Qed.
Lemma join_head (w : text) l (t : text) : l <> [] -> t = w ++ [space] -> t ++ join [space] l = join [space] (w :: l).
Proof. intros N ->. rewrite join_cons by exact N. now rewrite <- app_assoc. Qed.
Lemma join_items_head i l t : l <> [] -> t = item_word i ++ [space] -> t ++ join [space] (map item_word l) = join [space] (map item_word (i :: l)).
Proof. intros N E. cbn [map]. apply join_head; [destruct l; [congruence|discriminate]|exact E]. Qed.
Lemma m_to_cm_sub x h : m_to_cm x - m_to_cm h / 2 = 100 * (x - h / 2).
Proof. unfold m_to_cm. lra. Qed.
Lemma last_map {A B} (f : A -> B) l d : last (map f l) (f d) = f (last l d).
Proof. induction l as [|a l IH]; [reflexivity|]. destruct l; [reflexivity|exact IH]. Qed.
Lemma last_default {A} (l : list A) a d d' : last (a :: l) d = last (a :: l) d'.
Proof. revert a; induction l as [|b l IH]; intro a; [reflexivity|]. apply (IH b). Qed.
Lemma last_cons {A} (l : list A) a d : last (a :: l) d = last l a.
Proof. destruct l as [|b l]; [reflexivity|]. change (last (a :: b :: l) d) with (last (b :: l) d). apply last_default. Qed.

Lemma r_bounds_columns h l : l <> [] -> by_radius (rad l) ->
  r_bounds (map m_to_cm (rad l)) (m_to_cm h / 2) (m_to_cm h) = Ok (boundaries h (map fst (columns l))).
Proof.
  intros N B. destruct (columns_radii l B) as [_ U]. unfold r_bounds. rewrite np_unique_scale, U, map_map.
  assert (N' : map fst (columns l) <> []) by (intro E; apply N, columns_nil; now apply map_eq_nil in E).
  destruct (map fst (columns l)) as [|x xs]; [congruence|]. cbn [map]. f_equal. unfold boundaries. rewrite last_cons. rewrite (last_map (fun x => m_to_cm x - m_to_cm h / 2) xs x).
  cbn [map app]. f_equal; [apply m_to_cm_sub|]. f_equal; [apply map_ext; intro; apply m_to_cm_sub|]. f_equal. unfold m_to_cm. lra.
Qed.

Lemma Forall_map_iff {A B} (f : A -> B) (P : B -> Prop) l : Forall P (map f l) <-> Forall (fun a => P (f a)) l.
Proof. apply Forall_map. Qed.
Lemma nums_good l : Forall double_range l -> Forall good_item (map Num l).
Proof. intro H. apply Forall_map. eapply Forall_impl; [|exact H]. apply num_good. Qed.
Lemma word_ne_C s r : word_check s = true -> (1 < length (txt s))%nat -> item_word (Word s) <> [r].
Proof. intros _ L E. cbn [item_word] in E. rewrite E in L. cbn in L. lia. Qed.
Lemma zero_range : double_range 0.
Proof. now left. Qed.

Lemma si3_reads bounds : bounds <> [] -> Forall double_range bounds ->
  exists t, si3_card bounds = Ok t /\ reads t [map item_word ([Word "SI3"; Word "H"]%string ++ map Num bounds)].
Proof.
  intros N R. unfold si3_card. rewrite numbers_items. change (txt "SI3 H ") with (txt "SI3 " ++ txt "H "). rewrite <- app_assoc.
  rewrite (join_items_head (Word "H")) by (destruct bounds; [congruence|discriminate] || reflexivity). rewrite (join_items_head (Word "SI3")) by (discriminate || reflexivity).
  eapply wrap_items; [reflexivity| |discriminate|discriminate|lia]. constructor; [now apply word_good|]. constructor; [now apply word_good|]. now apply nums_good.
Qed.
Lemma spD_text (k : text) t l : l <> [] -> k <> [] -> t = k ++ [space] ->
  t ++ txt "D " ++ fmt_e 5 0 ++ txt " " ++ numbers l = join [space] (k :: map item_word ([Word "D"; Num 0]%string ++ map Num l)).
Proof.
  intros N K ->. rewrite numbers_items.
  replace (fmt_e 5 0 ++ txt " " ++ join [space] (map item_word (map Num l))) with (join [space] (map item_word (Num 0 :: map Num l))).
  2: { rewrite <- (join_items_head (Num 0) (map Num l) (fmt_e 5 0 ++ [space])) by (destruct l; [congruence|discriminate] || reflexivity). now rewrite <- app_assoc. }
  rewrite (join_items_head (Word "D")) by (discriminate || reflexivity). apply join_head; [discriminate|reflexivity].
Qed.
Lemma sp3_reads sums (t0 : text) : t0 = txt "SP3 D " ++ fmt_e 5 0 ++ txt " " ++ numbers sums -> sums <> [] -> Forall double_range sums ->
  exists t, text_wrap t0 6 80 1 = Ok t /\ reads t [map item_word ([Word "SP3"; Word "D"; Num 0]%string ++ map Num sums)].
Proof.
  intros -> N R. change (txt "SP3 D ") with (txt "SP3 " ++ txt "D "). rewrite <- app_assoc. rewrite (spD_text (txt "SP3")) by (assumption || discriminate || reflexivity).
  eapply (wrap_items ([Word "SP3"; Word "D"; Num 0]%string ++ map Num sums)); [reflexivity| |discriminate|discriminate|lia].
  constructor; [now apply word_good|]. constructor; [now apply word_good|]. constructor; [apply num_good, zero_range|]. now apply nums_good.
Qed.
Lemma ds4_reads n : n <> O -> Forall (fun k => (Z.of_nat k < 10 ^ 70)%Z) (seq 5 n) ->
  exists t, ds4_card (S n) = Ok t /\ reads t [map item_word ([Word "DS4"; Word "S"]%string ++ map Nat (seq 5 n))].
Proof.
  intros N R. unfold ds4_card. replace (S n - 1)%nat with n by lia. replace (map show_nat (seq 5 n)) with (map item_word (map Nat (seq 5 n))) by now rewrite map_map.
  change (txt "DS4 S ") with (txt "DS4 " ++ txt "S "). rewrite <- app_assoc.
  rewrite (join_items_head (Word "S")) by (destruct n; [congruence|discriminate] || reflexivity). rewrite (join_items_head (Word "DS4")) by (discriminate || reflexivity).
  eapply wrap_items; [reflexivity| |discriminate|discriminate|lia]. constructor; [now apply word_good|]. constructor; [now apply word_good|].
  apply Forall_map. eapply Forall_impl; [|exact R]. apply nat_good.
Qed.
Lemma key_not_c s n (c : ascii) : (s = "SI" \/ s = "SP")%string -> item_word (Key s n) <> [c].
Proof. intros [-> | ->]; cbn [item_word txt list_ascii_of_string app]; discriminate. Qed.
Lemma key_text s n : txt s ++ show_nat n ++ [space] = item_word (Key s n) ++ [space].
Proof. cbn [item_word]. now rewrite <- app_assoc. Qed.

Lemma vertical_reads z h r_data i n ab zs ss : n = (i + 5)%nat -> column (map m_to_cm z) ab = map m_to_cm zs -> column r_data ab = ss ->
  nth_error (map m_to_cm z) (Z.to_nat (snd ab)) = Some (m_to_cm (last zs 0)) -> zs <> [] -> ss <> [] ->
  (Z.of_nat n < 10 ^ 70)%Z -> Forall double_range (boundaries h zs) -> Forall double_range ss ->
  exists a b, vertical_cards (map m_to_cm z) (m_to_cm h / 2) r_data i ab = Ok (a, b) /\
    reads (a ++ b) [map item_word ([Key "SI" n; Word "H"]%string ++ map Num (boundaries h zs)); map item_word ([Key "SP" n; Word "D"; Num 0]%string ++ map Num ss)].
Proof.
  intros -> Ez Es El Nz Ns R Rz Rs. unfold vertical_cards. rewrite Ez, Es, El. cbn [bind].
  destruct (show_nat_chars (i + 5)) as [_ Nn]. assert (In : (6 <= length (show_nat (i + 5)) + 5)%nat) by (destruct (show_nat (i + 5)); [congruence|cbn; lia]).
  assert (Eb : numbers (map (fun zi => zi - m_to_cm h / 2) (map m_to_cm zs)) ++ txt " " ++ fmt_e 5 (m_to_cm (last zs 0) + m_to_cm h / 2)
    = join [space] (map item_word (map Num (boundaries h zs)))).
  { unfold boundaries. rewrite map_map. replace (m_to_cm (last zs 0) + m_to_cm h / 2) with (100 * (last zs 0 + h / 2)) by (unfold m_to_cm; lra).
    rewrite (map_ext (fun x => m_to_cm x - m_to_cm h / 2) (fun x => 100 * (x - h / 2))) by (intro; apply m_to_cm_sub).
    generalize (100 * (last zs 0 + h / 2)) as e. intro e. rewrite <- numbers_items. unfold numbers. rewrite map_app. cbn [map].
    assert (Nm : map (fmt_e 5) (map (fun x => 100 * (x - h / 2)) zs) <> []) by (destruct zs; [congruence|discriminate]).
    revert Nm. generalize (map (fmt_e 5) (map (fun x => 100 * (x - h / 2)) zs)) as ws. clear. induction ws as [|w ws IH]; intro N; [congruence|].
    destruct ws as [|w' ws]; [reflexivity|]. specialize (IH ltac:(discriminate)). rewrite join_cons by discriminate.
    change ((w :: w' :: ws) ++ [fmt_e 5 e]) with (w :: (w' :: ws) ++ [fmt_e 5 e]). rewrite (join_cons w ((w' :: ws) ++ [fmt_e 5 e])) by discriminate. rewrite <- IH, <- !app_assoc. reflexivity. }
  assert (T1 : txt "SI" ++ show_nat (i + 5) ++ txt " H " ++ numbers (map (fun zi => zi - m_to_cm h / 2) (map m_to_cm zs)) ++ txt " " ++ fmt_e 5 (m_to_cm (last zs 0) + m_to_cm h / 2)
    = join [space] (map item_word ([Key "SI" (i + 5); Word "H"]%string ++ map Num (boundaries h zs)))).
  { rewrite Eb. change (txt " H ") with ([space] ++ txt "H "). rewrite <- app_assoc.
    assert (Nb : map Num (boundaries h zs) <> []) by (unfold boundaries; destruct zs; discriminate).
    rewrite (join_items_head (Word "H")) by (exact Nb || reflexivity). cbn [app]. 
    assert (NH : Word "H" :: map Num (boundaries h zs) <> []) by discriminate. rewrite <- (join_items_head (Key "SI" (i + 5)) _ _ NH eq_refl).
    rewrite <- key_text. now rewrite <- !app_assoc. }
  rewrite T1. destruct (wrap_items ([Key "SI" (i + 5); Word "H"]%string ++ map Num (boundaries h zs)) _ _ _ (length (show_nat (i + 5)) + 5) eq_refl) as (a & Ea & Ra).
  { constructor; [apply key_good; [now left|exact R]|]. constructor; [now apply word_good|]. now apply nums_good. }
  { apply key_not_c; now left. } { apply key_not_c; now left. } { exact In. }
  rewrite Ea. cbn [bind].
  assert (T2 : txt "SP" ++ show_nat (i + 5) ++ txt " D " ++ fmt_e 5 0 ++ txt " " ++ numbers ss = join [space] (map item_word ([Key "SP" (i + 5); Word "D"; Num 0]%string ++ map Num ss))).
  { change (txt " D ") with ([space] ++ txt "D "). rewrite <- app_assoc.
    assert (K : item_word (Key "SP" (i + 5)) <> []) by discriminate.
    pose proof (spD_text (item_word (Key "SP" (i + 5))) (item_word (Key "SP" (i + 5)) ++ [space]) ss Ns K eq_refl) as H. cbn [map app]. cbn [map app] in H. rewrite <- H.
    rewrite <- key_text. now rewrite <- !app_assoc. }
  rewrite T2. destruct (wrap_items ([Key "SP" (i + 5); Word "D"; Num 0]%string ++ map Num ss) _ _ _ (length (show_nat (i + 5)) + 5) eq_refl) as (b & Eb' & Rb).
  { constructor; [apply key_good; [now right|exact R]|]. constructor; [now apply word_good|]. constructor; [apply num_good, zero_range|]. now apply nums_good. }
  { apply key_not_c; now right. } { apply key_not_c; now right. } { exact In. }
  rewrite Eb'. cbn [bind]. exists a, b. split; [reflexivity|]. change ([map item_word ([Key "SI" (i + 5); Word "H"]%string ++ map Num (boundaries h zs)); map item_word ([Key "SP" (i + 5); Word "D"; Num 0]%string ++ map Num ss)])
    with ([map item_word ([Key "SI" (i + 5); Word "H"]%string ++ map Num (boundaries h zs))] ++ [map item_word ([Key "SP" (i + 5); Word "D"; Num 0]%string ++ map Num ss)]).
  now apply reads_app.
Qed.

Lemma nth_last {A} (pre zs post : list A) (d : A) : zs <> [] -> nth_error (pre ++ zs ++ post) (length pre + length zs - 1) = Some (last zs d).
Proof.
  intro N. destruct (exists_last N) as (l & x & ->). rewrite last_last. rewrite app_length. cbn [length].
  replace (length pre + (length l + 1) - 1)%nat with (length (pre ++ l)) by (rewrite app_length; lia).
  replace (pre ++ (l ++ [x]) ++ post) with ((pre ++ l) ++ x :: post) by now rewrite <- !app_assoc.
  rewrite nth_error_app2, Nat.sub_diag by lia. reflexivity.
Qed.
Lemma num_range c l : Forall (fun i => match i with Num x | Num6 x => double_range x | Key _ n | Nat n => (Z.of_nat n < 10 ^ 70)%Z | Word _ => True end) (c ++ map Num l) -> Forall double_range l.
Proof. intro H. apply Forall_app in H. destruct H as [_ H]. apply Forall_map in H. exact H. Qed.

Lemma vertical_all h cs : forall (pz ps : list R) i, length pz = length ps -> Forall (fun c : col => snd c <> []) cs -> items_in_range (column_cards h (i + 5) cs) ->
  exists out, vertical_dist_cards (map m_to_cm (pz ++ concat (map heights cs))) (m_to_cm h / 2) (ps ++ concat (map strengths cs)) i (segs (length pz) (map (fun c : col => length (snd c)) cs)) = Ok out /\
    reads (concat (map (fun c => fst c ++ snd c) out)) (map (map item_word) (column_cards h (i + 5) cs)).
Proof.
  induction cs as [|c cs IH]; intros pz ps i L N R; [exists []; split; [reflexivity|apply reads_nil]|].
  cbn [map concat segs column_cards vertical_dist_cards] in *.
  assert (Nc : snd c <> []) by exact (Forall_inv N). assert (Rsi := Forall_inv R). assert (Rsp := Forall_inv (Forall_inv_tail R)). assert (Rest := Forall_inv_tail (Forall_inv_tail R)).
  assert (Lh : length (heights c) = length (snd c)) by apply map_length. assert (Ls : length (strengths c) = length (snd c)) by apply map_length.
  assert (Nz : heights c <> []) by (intro E; rewrite E in Lh; destruct (snd c); [congruence|discriminate]).
  assert (Ns : strengths c <> []) by (intro E; rewrite E in Ls; destruct (snd c); [congruence|discriminate]).
  destruct (vertical_reads (pz ++ heights c ++ concat (map heights cs)) h (ps ++ strengths c ++ concat (map strengths cs)) i (i + 5)
    ((Z.of_nat (length pz) - 1)%Z, (Z.of_nat (length pz + length (snd c)) - 1)%Z) (heights c) (strengths c)) as (a & b & E & Ra).
  - reflexivity.
  - rewrite column_map. f_equal. rewrite <- Lh. now apply column_mid.
  - rewrite <- Ls. now apply column_mid.
  - cbn [snd]. replace (Z.to_nat (Z.of_nat (length pz + length (snd c)) - 1)) with (length pz + length (heights c) - 1)%nat.
    + rewrite nth_error_map, (nth_last pz (heights c) _ 0 Nz). reflexivity.
    + rewrite Lh. destruct (snd c); [congruence|]. cbn [length]. lia.
  - exact Nz.
  - exact Ns.
  - exact (Forall_inv Rsi).
  - exact (num_range _ _ Rsi).
  - exact (num_range _ _ Rsp).
  - rewrite E. cbn [bind].
    destruct (IH (pz ++ heights c) (ps ++ strengths c) (S i)) as (out & Eo & Ro).
    + rewrite !app_length. lia.
    + exact (Forall_inv_tail N).
    + exact Rest.
    + rewrite <- !app_assoc in Eo. rewrite app_length, Lh in Eo. rewrite Eo. cbn [bind]. eexists. split; [reflexivity|]. cbn [map concat fst snd].
      change (map item_word ?x :: map item_word ?y :: ?r) with ([map item_word x; map item_word y] ++ r). apply reads_app; [exact Ra|exact Ro].
Qed.

(** ** The header *)
Lemma one_line_no_nl t : one_line t -> no_nl t.
Proof. exact (fun H => H). Qed.
Lemma no_nl_app a b : no_nl a -> no_nl b -> no_nl (a ++ b).
Proof. intros. now apply Forall_app. Qed.
Lemma fmt_no_nl p x : no_nl (fmt_e p x).
Proof. destruct (fmt_e_facts p x) as (_ & F & _). eapply Forall_impl; [|exact F]. intros c H. apply num_char_plain in H. destruct (is_newline c) eqn:Ec; [|reflexivity]. unfold is_newline in Ec. apply Ascii.eqb_eq in Ec. subst c. destruct H as [H _]. cbv in H. lia. Qed.
Lemma reads_authors l : l <> [] -> Forall (fun a : text * text * text => one_line (fst (fst a)) /\ one_line (snd (fst a)) /\ one_line (snd a)) l ->
  reads (line (join [newline] (map author_line l))) [].
Proof.
  assert (One : forall a : text * text * text, one_line (fst (fst a)) /\ one_line (snd (fst a)) /\ one_line (snd a) -> reads (line (author_line a)) []).
  { intros [[g f] af] (H1 & H2 & H3). cbn [fst snd] in *. apply reads_comment; [|reflexivity]. unfold author_line. repeat apply no_nl_app; try assumption; now apply no_nl_txt. }
  intros N F. induction F as [|a l Ha Hl IH]; [congruence|]. destruct l as [|b l]; [now apply One|].
  replace (line (join [newline] (map author_line (a :: b :: l)))) with (line (author_line a) ++ line (join [newline] (map author_line (b :: l)))).
  - change (@nil (list text)) with (@nil (list text) ++ []). apply reads_app; [now apply One|]. apply IH. discriminate.
  - unfold line. cbn [map]. change (join [newline] (author_line a :: author_line b :: map author_line l)) with (author_line a ++ [newline] ++ join [newline] (author_line b :: map author_line l)).
    now rewrite <- !app_assoc.
Qed.
Lemma reads_sdef : reads (line (txt "sdef erg=d2 par=1 wgt=1") ++ line (txt "      pos = 0 0 0    $ Center = origin") ++
    line (txt "      axs = 0 0 1    $ Cylinder points along the Z axis") ++
    line (txt "      rad = d3       $ radial distribution defined by distribution 3") ++
    line (txt "      ext = frad d4  $ extent distribution defined by distribution 4 which is dependent on distribution rad")) [map item_word sdef_card].
Proof.
  rewrite !app_assoc.
  change (map item_word sdef_card) with ((((map txt ["sdef"; "erg=d2"; "par=1"; "wgt=1"]%string ++ map txt ["pos"; "="; "0"; "0"; "0"]%string) ++ map txt ["axs"; "="; "0"; "0"; "1"]%string) ++ map txt ["rad"; "="; "d3"]%string) ++ map txt ["ext"; "="; "frad"; "d4"]%string).
  do 4 (apply reads_continue; [|now apply no_nl_txt|reflexivity|reflexivity|reflexivity]).
  apply reads_line; [now apply no_nl_txt|reflexivity|reflexivity|reflexivity].
Qed.
Lemma reads_sdef_then rest ws : reads rest ws -> reads (line (txt "sdef erg=d2 par=1 wgt=1") ++ line (txt "      pos = 0 0 0    $ Center = origin") ++
    line (txt "      axs = 0 0 1    $ Cylinder points along the Z axis") ++
    line (txt "      rad = d3       $ radial distribution defined by distribution 3") ++
    line (txt "      ext = frad d4  $ extent distribution defined by distribution 4 which is dependent on distribution rad") ++ rest) ([map item_word sdef_card] ++ ws).
Proof. intro R. pose proof (reads_app _ _ _ _ reads_sdef R) as H. rewrite <- !app_assoc in H. exact H. Qed.
Ltac comment := apply reads_comment_then; [now apply no_nl_txt|reflexivity|].
Lemma header_reads d cit reac r_data temps T cards w ew : proper_citation cit -> mean_ion_temp r_data temps = Ok T -> energy_cards d reac T = Ok (cards, w) -> reads cards ew ->
  exists t, sdef_header d cit reac r_data temps = Ok (t, w) /\ reads t ([map item_word sdef_card] ++ ew).
Proof.
  intros (Na & Hr & Ha) ET EC R. unfold sdef_header. rewrite ET. cbn [bind]. rewrite EC. cbn [bind fst snd]. eexists. split; [reflexivity|].
  do 2 comment. apply reads_comment_then; [apply no_nl_app; [now apply no_nl_txt|exact Hr]|reflexivity|]. do 4 comment.
  change ([map item_word sdef_card] ++ ew) with ([] ++ ([map item_word sdef_card] ++ ew)). apply reads_app; [now apply reads_authors|].
  do 10 comment.
  apply reads_comment_then; [apply no_nl_app; apply no_nl_txt; [reflexivity|destruct reac; reflexivity]|reflexivity|].
  apply reads_comment_then; [apply no_nl_app; [now apply no_nl_txt|apply no_nl_app; [apply fmt_no_nl|now apply no_nl_txt]]|reflexivity|].
  do 4 comment.
  apply reads_sdef_then. rewrite <- (app_nil_r ew). apply reads_app; [exact R|].
  do 2 comment. apply reads_comment; [now apply no_nl_txt|reflexivity].
Qed.

(** ** The energy cards *)
Lemma tt_nonempty d T e p : tt_table d T e p -> e <> [] /\ p <> [].
Proof.
  intros [w E]. destruct (C45_energy_spectrum_normalised d T TT SData e p w E) as [L I].
  assert (N : e <> []) by (intros ->; cbn in I; lra). split; [exact N|]. destruct e; [congruence|]. destruct p; discriminate.
Qed.
Lemma fusion_reads T code : (code = "-1" \/ code = "-2")%string ->
  reads (line (txt "SP2 -4 " ++ fmt_e 6 (keV_to_MeV T) ++ txt " " ++ txt code)) [map item_word (fusion_card code T)].
Proof.
  intro C. change (keV_to_MeV T) with (T / 1000).
  assert (Pf : plain_word (fmt_e 6 (T / 1000))) by (destruct (fmt_e_facts 6 (T / 1000)) as (_ & F & _ & N); now apply plain_num).
  assert (Pc : plain_word (txt code)) by (destruct C as [-> | ->]; (split; [discriminate|]; repeat (constructor; [split; [cbv; lia|discriminate]|]); constructor)).
  replace (txt "SP2 -4 " ++ fmt_e 6 (T / 1000) ++ txt " " ++ txt code) with (join [space] (map item_word (fusion_card code T))).
  - eapply reads_join_line; [reflexivity|discriminate| |discriminate|discriminate].
    constructor; [split; [discriminate|repeat (constructor; [split; [cbv; lia|discriminate]|]); constructor]|].
    constructor; [split; [discriminate|repeat (constructor; [split; [cbv; lia|discriminate]|]); constructor]|].
    constructor; [exact Pf|]. constructor; [exact Pc|constructor].
  - reflexivity.
Qed.
Lemma tt_card_reads (k h : string) l : word_check k = true -> word_check h = true -> (1 < length (txt k))%nat -> l <> [] -> Forall double_range l ->
  exists t, text_wrap (fmt_e 5 0 ++ txt " " ++ numbers l) 6 80 1 = Ok t /\
    reads ((txt k ++ txt " " ++ txt h ++ txt " ") ++ t) [map item_word ([Word k; Word h; Num 0] ++ map Num l)].
Proof.
  intros Hk Hh Lk N R.
  replace (fmt_e 5 0 ++ txt " " ++ numbers l) with (join [space] (map item_word (Num 0 :: map Num l))).
  2: { rewrite numbers_items. rewrite <- (join_items_head (Num 0) (map Num l) (fmt_e 5 0 ++ [space])) by (destruct l; [congruence|discriminate] || reflexivity). now rewrite <- app_assoc. }
  apply (reads_prefixed (txt k) (txt h)); try (intro E; rewrite E in Lk; cbn in Lk; lia); try discriminate; try lia.
  - apply (word_good k Hk).
  - apply (word_good h Hh).
  - apply Forall_map. apply (Forall_impl _ (fun i H => H : good_item i)). constructor; [apply num_good, zero_range|now apply nums_good].
Qed.
Lemma energy_reads d reac T energy : expected_energy d reac T energy -> items_in_range energy ->
  exists t w, energy_cards d reac (Fin T) = Ok (t, w) /\ reads t (map (map item_word) energy).
Proof.
  intros E R. destruct E as [T|T|T e p Ht].
  - do 2 eexists. split; [reflexivity|]. apply fusion_reads. now left.
  - do 2 eexists. split; [reflexivity|]. apply fusion_reads. now right.
  - destruct (tt_nonempty d T e p Ht) as [Ne Np]. destruct Ht as [w Ew]. cbn [energy_cards tt_spectrum]. rewrite Ew. cbn [bind fst snd].
    assert (R1 := Forall_inv R). assert (R2 := Forall_inv (Forall_inv_tail R)).
    destruct (tt_card_reads "SI2" "H" (map keV_to_MeV e)) as (a & Ea & Ra); try reflexivity; [cbn; lia|destruct e; [congruence|discriminate]| |].
    { rewrite <- (map_map (fun x => x / 1000) Num) in R1. exact (num_range _ _ R1). }
    destruct (tt_card_reads "SP2" "D" p) as (b & Eb & Rb); try reflexivity; [cbn; lia|exact Np|exact (num_range _ _ R2)|].
    rewrite Ea. cbn [bind]. rewrite Eb. cbn [bind]. do 2 eexists. split; [reflexivity|].
    change (map (map item_word) ?l) with (map (map item_word) l).
    replace (map (map item_word) _) with ([map item_word ([Word "SI2"; Word "H"; Num 0]%string ++ map Num (map keV_to_MeV e))] ++ [map item_word ([Word "SP2"; Word "D"; Num 0]%string ++ map Num p)]).
    + apply reads_app; assumption.
    + rewrite map_map. reflexivity.
Qed.

(** ** The file *)
Lemma map2_combine (w x : list R) : map2 Rmult w x = map (fun p => fst p * snd p) (combine w x).
Proof. revert x; induction w as [|a w IH]; intros [|b x]; try reflexivity. cbn. now rewrite IH. Qed.
Lemma mean_weighted st temps : length temps = length st -> total st <> 0 -> mean_ion_temp st temps = Ok (Fin (weighted_mean st temps)).
Proof.
  intros L N. unfold mean_ion_temp, f_div, weighted_mean. rewrite L, Nat.eqb_refl, !pysum_total, map2_combine. destruct (Reqb_spec (total st) 0); [contradiction|]. reflexivity.
Qed.
Lemma boundaries_length h l : length (boundaries h l) = S (length l).
Proof. unfold boundaries. rewrite app_length, map_length. cbn. lia. Qed.
Lemma file_reads d cit (l : list cell) h temps reac energy : proper_citation cit -> l <> [] -> by_radius (rad l) -> length temps = length l -> total (sts l) <> 0 ->
  expected_energy d reac (weighted_mean (sts l) temps) energy -> items_in_range (expected_deck energy h (columns l)) ->
  exists t w, file_content d cit (map m_to_cm (rad l)) (map m_to_cm (hts l)) (m_to_cm h) temps reac (sts l) = Ok (t, w) /\
    reads t (map (map item_word) (expected_deck energy h (columns l))).
Proof.
  intros Pc N B L Nt E R. unfold expected_deck, items_in_range in R. apply Forall_app in R. destruct R as [_ R]. apply Forall_app in R. destruct R as [Re R].
  apply Forall_app in R. destruct R as [Rr Rc].
  destruct (energy_reads d reac _ energy E Re) as (ec & w & Ee & Rde).
  assert (Lt : length temps = length (sts l)) by (unfold sts; now rewrite map_length).
  destruct (header_reads d cit reac (sts l) temps _ ec w _ Pc (mean_weighted _ _ Lt Nt) Ee Rde) as (ht & Eh & Rh).
  unfold file_content. rewrite Eh. cbn [bind fst snd]. rewrite r_bounds_columns by assumption. cbn [bind].
  assert (Nc : columns l <> []) by (intro H; apply N; now apply columns_nil).
  assert (Rr1 := Forall_inv Rr). assert (Rr2 := Forall_inv (Forall_inv_tail Rr)). assert (Rr3 := Forall_inv (Forall_inv_tail (Forall_inv_tail Rr))).
  destruct (si3_reads (boundaries h (map fst (columns l)))) as (si & Esi & Rsi).
  { unfold boundaries. destruct (map fst (columns l)); discriminate. } { exact (num_range _ _ Rr1). }
  rewrite Esi. cbn [bind]. unfold sp3_card. rewrite z_ints_scale, ranges_z_ints by exact N.
  assert (Sums : map (fun ab => pysum (column (sts l) ab)) (segs 0 (map (fun c : col => length (snd c)) (columns l))) = map (fun c => total (strengths c)) (columns l)).
  { rewrite <- (columns_strengths l). pose proof (column_segs (map strengths (columns l)) []) as H. cbn [app length] in H.
    rewrite map_map in H. rewrite (map_ext (fun c : col => length (snd c)) (fun x => length (strengths x))) by (intro c; unfold strengths; now rewrite map_length).
    rewrite <- (map_map (column (concat (map strengths (columns l)))) pysum), H, map_map. apply map_ext. intro c. apply pysum_total. }
  rewrite Sums. destruct (sp3_reads (map (fun c => total (strengths c)) (columns l)) _ eq_refl) as (sp & Esp & Rsp).
  { destruct (columns l); [congruence|discriminate]. } { rewrite <- (map_map (fun c => total (strengths c)) Num) in Rr2. exact (num_range _ _ Rr2). }
  rewrite Esp. cbn [bind]. rewrite boundaries_length, (map_length fst (columns l)).
  destruct (ds4_reads (length (columns l))) as (ds & Eds & Rds).
  { destruct (columns l); [congruence|discriminate]. }
  { apply Forall_app in Rr3. destruct Rr3 as [_ Rr3]. apply Forall_map in Rr3. exact Rr3. }
  match goal with |- context [ds4_card ?x] => change x with (S (length (columns l))) end. rewrite Eds. cbn [bind].
  destruct (vertical_all h (columns l) [] [] 0 eq_refl (columns_nonempty l) Rc) as (out & Eo & Ro). cbn [app length] in Eo. rewrite columns_heights, columns_strengths in Eo.
  rewrite Eo. cbn [bind]. do 2 eexists. split; [reflexivity|]. unfold expected_deck. rewrite !map_app. cbn [map] in Rh |- *.
  change (reads (ht ++ si ++ sp ++ ds ++ line (txt "C") ++ line (txt "C 3. Neutron Emission Probability - Vertical Distribution") ++ line (txt "C") ++ concat (map (fun c => fst c ++ snd c) out))
    (([map item_word sdef_card] ++ map (map item_word) energy) ++ map (map item_word) (radial_cards h (columns l)) ++ map (map item_word) (column_cards h 5 (columns l)))).
  apply reads_app; [exact Rh|]. unfold radial_cards. cbn [map].
  match goal with |- reads _ ([?a; ?b; ?c] ++ ?r) => change ([a; b; c] ++ r) with ([a] ++ [b] ++ [c] ++ r) end.
  apply reads_app; [exact Rsi|]. apply reads_app; [rewrite map_map in Rsp; exact Rsp|]. apply reads_app; [exact Rds|].
  do 3 comment. exact Ro.
Qed.

Lemma combine_fst {A B} (a : list A) (b : list B) : length b = length a -> map fst (combine a b) = a.
Proof. revert b; induction a as [|x a IH]; intros [|y b] L; try discriminate; [reflexivity|]. cbn. f_equal. apply IH. cbn in L. lia. Qed.
Lemma combine_snd {A B} (a : list A) (b : list B) : length b = length a -> map snd (combine a b) = b.
Proof. revert b; induction a as [|x a IH]; intros [|y b] L; try discriminate; [reflexivity|]. cbn. f_equal. apply IH. cbn in L. lia. Qed.
Lemma cells_parts (r z v : list R) : length z = length r -> length v = length r ->
  rad (combine (combine r z) v) = r /\ hts (combine (combine r z) v) = z /\ sts (combine (combine r z) v) = v /\ length (combine (combine r z) v) = length r.
Proof.
  intros Lz Lv. assert (Lc : length v = length (combine r z)) by (rewrite combine_length; lia).
  unfold rad, hts, sts. rewrite <- (map_map fst fst), <- (map_map fst snd), !combine_fst, !combine_snd by assumption.
  repeat split; try reflexivity. rewrite !combine_length. lia.
Qed.
Lemma neutronic_is r : neutronic r = is_neutronic r.
Proof. unfold neutronic. rewrite neutrons_label. now destruct r. Qed.
Lemma file_name_ok stub r : is_neutronic r = true -> file_name stub r = Ok (name_of stub r).
Proof. now destruct r. Qed.
