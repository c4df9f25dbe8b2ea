(** Lemmas about wrapping any text, and about error messages. *)
From Coq Require Import Ascii String List Bool Arith Lia.
From Verif Require Import Base TextWrap SpecText TextProofs Error SpecError.
Local Open Scope nat_scope.

(** ** Ink *)
Lemma ink_app a b : ink (a ++ b) = ink a ++ ink b.
Proof. apply filter_app. Qed.
Lemma ink_blank t : blank t = true -> ink t = [].
Proof.
  rewrite blank_spec. unfold ink. induction t as [|c t IH]; [reflexivity|]. cbn [forallb filter]. intro H. apply andb_true_iff in H. destruct H as [-> H]. now apply IH.
Qed.
Lemma ink_drop l : ink (concat (drop_last_blank l)) = ink (concat l).
Proof.
  unfold drop_last_blank. destruct (rev l) as [|c r] eqn:E.
  - assert (l = []) as -> by (rewrite <- (rev_involutive l), E; reflexivity). reflexivity.
  - assert (El : l = rev r ++ [c]) by (rewrite <- (rev_involutive l), E; reflexivity). destruct (blank c) eqn:B; [|reflexivity].
    rewrite El, concat_app, ink_app. cbn [concat]. rewrite app_nil_r, (ink_blank c B). now rewrite app_nil_r.
Qed.
Lemma drop_prefix l : exists t, l = drop_last_blank l ++ t.
Proof.
  unfold drop_last_blank. destruct (rev l) as [|c r] eqn:E.
  - assert (l = []) as -> by (rewrite <- (rev_involutive l), E; reflexivity). now exists [].
  - destruct (blank c) eqn:B; [|exists []; now rewrite app_nil_r]. exists [c]. rewrite <- (rev_involutive l), E. reflexivity.
Qed.

(** ** Long chunks *)
Lemma rfind_lt t n k : rfind_hyphen t n = Some k -> k < n.
Proof.
  revert n k; induction t as [|c t IH]; intros n k H; [destruct n; discriminate|]. destruct n as [|n]; [discriminate|]. cbn in H.
  destruct (rfind_hyphen t n) as [j|] eqn:E; [injection H as <-; apply IH in E; lia|]. destruct (Ascii.eqb c "-"); [injection H as <-; lia|discriminate].
Qed.
Lemma handle_spec width cur w part rest : 1 <= width -> cur <= width -> width < length w -> handle_long_word width cur w = (part, rest) ->
  part ++ rest = w /\ cur + length part <= width /\ rest <> [] /\ (cur = 0 -> part <> []).
Proof.
  intros W1 Hc L H. unfold handle_long_word in H. destruct (Nat.ltb_spec width 1); [lia|]. set (cut := match _ with Some h => _ | None => _ end) in H.
  assert (Cut : cut <= width - cur /\ (cur = 0 -> 0 < cut)).
  { unfold cut. destruct (width - cur <? length w).
    - destruct (rfind_hyphen w (width - cur)) as [h|] eqn:E; [apply rfind_lt in E; destruct (_ && _); lia|lia].
    - lia. }
  injection H as <- <-. split; [apply firstn_skipn|]. split; [rewrite firstn_length; lia|]. split.
  - intro E. apply (f_equal (@length ascii)) in E. rewrite skipn_length in E. cbn in E. lia.
  - intros C0 E. apply (f_equal (@length ascii)) in E. rewrite firstn_length in E. cbn in E. lia.
Qed.
Lemma good_part a b : good (a ++ b) -> (a <> [] -> good a) /\ (b <> [] -> good b).
Proof.
  intros [_ [B|S0]]; [rewrite blank_spec, forallb_app in B|unfold solid in S0; rewrite forallb_app in S0].
  - apply andb_true_iff in B. destruct B as [B1 B2]. split; intro N; (split; [exact N|left; now rewrite blank_spec]).
  - apply andb_true_iff in S0. destruct S0 as [B1 B2]. split; intro N; (split; [exact N|now right]).
Qed.

(** ** Wrapping any chunks *)
Lemma wrap_chunks_any width fuel : 1 <= width -> forall started chunks, Forall good chunks -> length (concat chunks) <= fuel ->
  let ls := wrap_chunks fuel width started chunks in
  ink (concat ls) = ink (concat chunks) /\
  Forall (fun l => l <> [] /\ length l <= width /\ (forall c, In c l -> In c (concat chunks))) ls.
Proof.
  intro W1. induction fuel as [|fuel IH]; intros started chunks G L; cbv zeta.
  - destruct chunks as [|c r]; [cbn; auto|]. pose proof (concat_length_pos c r (Forall_inv G)). lia.
  - destruct chunks as [|c r]; [cbn; auto|]. cbn [wrap_chunks]. set (ch := if blank c && started then r else c :: r).
    assert (Hch : Forall good ch /\ ink (concat ch) = ink (concat (c :: r)) /\ (forall x, In x (concat ch) -> In x (concat (c :: r))) /\ length (concat ch) <= S fuel /\ (ch = c :: r \/ length (concat ch) <= fuel)).
    { unfold ch. destruct (blank c && started) eqn:Q; [|split; [exact G|]; repeat split; auto]. apply andb_true_iff in Q. destruct Q as [B _]. pose proof (Forall_inv G) as [Nc _].
      assert (1 <= length c) by (destruct c; [congruence|cbn; lia]). cbn [concat] in L. rewrite app_length in L.
      split; [exact (Forall_inv_tail G)|]. split; [cbn [concat]; rewrite ink_app, (ink_blank c B); reflexivity|]. split; [intros x Hx; cbn [concat]; apply in_or_app; now right|]. split; [lia|right; lia]. }
    destruct Hch as (G' & Ik & Inc & L' & Cases). destruct (take_fit width 0 ch) as [line rest] eqn:Et. destruct (take_fit_spec width ch 0 line rest (Nat.le_0_l _) Et) as (Ech & Len & Ne).
    assert (Gl : Forall good line /\ Forall good rest) by (rewrite Ech in G'; now apply Forall_app). destruct Gl as [Gl Gr].
    (* the line and the rest after the long chunk *)
    assert (Mid : forall line' rest', (match rest with
        | w :: rest' => if width <? length w then let '(part, leftover) := handle_long_word width (length (concat line)) w in (line ++ [part], leftover :: rest') else (line, rest)
        | [] => (line, rest) end) = (line', rest') ->
      concat line' ++ concat rest' = concat ch /\ length (concat line') <= width /\ Forall good rest' /\ (ch = c :: r -> concat line' <> []) /\ Forall (fun x => x <> []) (drop_last_blank line')).
    { assert (Nl : Forall (fun x : text => x <> []) line) by (eapply Forall_impl; [|exact Gl]; now intros a [H _]).
      assert (Nd : forall l : list text, Forall (fun x => x <> []) l -> Forall (fun x => x <> []) (drop_last_blank l)).
      { intros l Hl. destruct (drop_prefix l) as [t Ht]. rewrite Ht in Hl. now apply Forall_app in Hl. }
      intros line' rest' E. destruct rest as [|w rest0].
      - injection E as <- <-. split; [now rewrite Ech, concat_app|]. split; [exact Len|]. split; [constructor|]. split; [|now apply Nd]. intros Q. rewrite app_nil_r in Ech. rewrite Q in Ech. rewrite <- Ech. pose proof (concat_length_pos c r (Forall_inv G)). destruct (concat (c :: r)); [cbn in *; lia|discriminate].
      - destruct (Nat.ltb_spec width (length w)) as [Lw|Lw].
        + destruct (handle_long_word width (length (concat line)) w) as [part leftover] eqn:Eh. injection E as <- <-. destruct (handle_spec _ _ _ _ _ W1 Len Lw Eh) as (Ew & Lp & Nlo & Np).
          rewrite concat_app. cbn [concat]. rewrite app_nil_r. split; [rewrite Ech, concat_app; cbn [concat]; rewrite <- Ew, <- !app_assoc; reflexivity|]. split; [rewrite app_length; lia|]. split.
          * constructor; [|exact (Forall_inv_tail Gr)]. pose proof (Forall_inv Gr) as Gw. rewrite <- Ew in Gw. destruct (good_part _ _ Gw) as [_ Gq]. now apply Gq.
          * split; [intros _ Q; apply app_eq_nil in Q; destruct Q as [Q1 Q2]; apply Np; [now rewrite Q1|exact Q2]|].
            destruct part as [|x part]; [unfold drop_last_blank; rewrite rev_app_distr; cbn [rev app]; change (blank []) with true; cbv iota; now rewrite rev_involutive|].
            apply Nd. apply Forall_app. split; [exact Nl|]. repeat constructor. discriminate.
        + injection E as <- <-. split; [now rewrite Ech, concat_app|]. split; [exact Len|]. split; [exact Gr|]. split; [|now apply Nd]. intros Q Z. destruct line as [|l0 line0]; [|pose proof (concat_length_pos l0 line0 (Forall_inv Gl)) as Q0; rewrite Z in Q0; cbn in Q0; lia].
          cbn in Ech. apply (Ne w rest0 Ech); [lia|reflexivity]. }
    destruct (match rest with | w :: rest' => _ | [] => _ end) as [line' rest'] eqn:Em. destruct (Mid line' rest' eq_refl) as (Ec & Ll & Gr' & Prog0 & Nd). clear Mid Em.
    assert (Prog : length (concat rest') <= fuel).
    { apply (f_equal (@length ascii)) in Ec. rewrite app_length in Ec. destruct Cases as [Q|Q]; [|lia]. specialize (Prog0 Q). destruct (concat line'); [congruence|]. cbn [length] in Ec. lia. }
    assert (Ink : ink (concat (c :: r)) = ink (concat (drop_last_blank line')) ++ ink (concat rest')) by (rewrite ink_drop, <- ink_app, <- Ik; now rewrite Ec).
    assert (Inr : forall x, In x (concat rest') -> In x (concat (c :: r))) by (intros x Hx; apply Inc; rewrite <- Ec; apply in_or_app; now right).
    assert (Keep : forall s, let ls := wrap_chunks fuel width s rest' in Forall (fun l => l <> [] /\ length l <= width /\ (forall c0, In c0 l -> In c0 (concat (c :: r)))) ls /\ ink (concat ls) = ink (concat rest')).
    { intros s ls. destruct (IH s rest' Gr' Prog) as [I1 I2]. split; [|exact I1]. eapply Forall_impl; [|exact I2]. cbv beta. intros l (A1 & A2 & A3). split; [exact A1|]. split; [exact A2|]. intros x Hx. apply Inr, A3, Hx. }
    destruct (drop_prefix line') as [tl Etl].
    assert (Cl : concat line' = concat (drop_last_blank line') ++ concat tl) by (rewrite <- concat_app; f_equal; exact Etl).
    destruct (drop_last_blank line') as [|l0 line0] eqn:Ed.
    + destruct (Keep started) as [K1 K2]. split; [rewrite K2; symmetry; exact Ink|exact K1].
    + destruct (Keep true) as [K1 K2]. split; [cbn [concat]; rewrite ink_app, K2; symmetry; exact Ink|]. constructor; [|exact K1].
      split; [|split].
      * (* the kept chunks are not all empty *)
        apply Forall_inv in Nd. cbn [concat]. intro Z. apply app_eq_nil in Z. destruct Z as [Z _]. exact (Nd Z).
      * rewrite Cl, app_length in Ll. lia.
      * intros x Hx. apply Inc. rewrite <- Ec, Cl. apply in_or_app. left. apply in_or_app. now left.
Qed.

(** ** Words *)
Lemma W_app a b : W (a ++ b) = W a ++ W b.
Proof. apply filter_app. Qed.
Lemma wrap_chunks_words width fuel : 1 <= width -> forall started chunks, Forall good chunks -> alt chunks ->
  Forall (fun c : text => blank c = false -> length c <= width) chunks -> length (concat chunks) <= fuel ->
  concat (map words (wrap_chunks fuel width started chunks)) = W chunks.
Proof.
  intro W1. induction fuel as [|fuel IH]; intros started chunks G A F L.
  - destruct chunks as [|c r]; [reflexivity|]. pose proof (concat_length_pos c r (Forall_inv G)). lia.
  - destruct chunks as [|c r]; [reflexivity|]. cbn [wrap_chunks]. set (ch := if blank c && started then r else c :: r).
    assert (Hch : Forall good ch /\ alt ch /\ Forall (fun c : text => blank c = false -> length c <= width) ch /\ W ch = W (c :: r) /\ length (concat ch) <= S fuel /\ (ch = c :: r \/ length (concat ch) <= fuel)).
    { unfold ch. destruct (blank c && started) eqn:Q; [|split; [exact G|]; repeat split; auto]. apply andb_true_iff in Q. destruct Q as [B _]. pose proof (Forall_inv G) as [Nc _].
      assert (1 <= length c) by (destruct c; [congruence|cbn; lia]). cbn [concat] in L. rewrite app_length in L.
      split; [exact (Forall_inv_tail G)|]. split; [exact (alt_tail _ _ A)|]. split; [exact (Forall_inv_tail F)|]. split; [unfold W; cbn [filter]; now rewrite B|]. split; [lia|right; lia]. }
    destruct Hch as (G' & A' & F' & Wc & L' & Cases). rewrite <- Wc. destruct (take_fit width 0 ch) as [line rest] eqn:Et. destruct (take_fit_spec width ch 0 line rest (Nat.le_0_l _) Et) as (Ech & Len & Ne).
    assert (Gl : Forall good line /\ Forall good rest) by (rewrite Ech in G'; now apply Forall_app). destruct Gl as [Gl Gr].
    assert (Al : alt line) by (rewrite Ech in A'; now apply alt_app_l in A').
    assert (Ar : alt rest) by (rewrite Ech in A'; now apply alt_app_r in A').
    assert (Fr : Forall (fun c : text => blank c = false -> length c <= width) rest) by (rewrite Ech in F'; apply Forall_app in F'; apply F').
    assert (Wch : W ch = W line ++ W rest) by (rewrite Ech; apply W_app).
    assert (Pl : line <> [] -> length (concat rest) <= fuel).
    { intro N. destruct line as [|l0 line0]; [congruence|]. rewrite Ech, concat_app, app_length in L'. pose proof (concat_length_pos l0 line0 (Forall_inv Gl)). lia. }
    assert (Long : forall w rest0, rest = w :: rest0 -> width < length w -> let '(part, leftover) := handle_long_word width (length (concat line)) w in
      blank part = true /\ Forall good (leftover :: rest0) /\ alt (leftover :: rest0) /\ Forall (fun c : text => blank c = false -> length c <= width) (leftover :: rest0) /\
      W (leftover :: rest0) = W rest /\ length (concat (leftover :: rest0)) <= fuel).
    { intros w rest0 Er Lw. destruct (handle_long_word width (length (concat line)) w) as [part leftover] eqn:Eh. destruct (handle_spec _ _ _ _ _ W1 Len Lw Eh) as (Ew & Lp & Nlo & Np).
      subst rest. assert (Bw : blank w = true). { apply Forall_inv in Fr. destruct (blank w); [reflexivity|]. specialize (Fr eq_refl). lia. }
      assert (Bs : blank part = true /\ blank leftover = true). { rewrite !blank_spec, <- Ew, forallb_app in *. now apply andb_true_iff in Bw. } destruct Bs as [Bp Bl]. split; [exact Bp|].
      assert (Gq : good leftover) by (split; [exact Nlo|now left]). split; [constructor; [exact Gq|exact (Forall_inv_tail Gr)]|]. split.
      - destruct rest0 as [|d rest0]; [exact I|]. destruct Ar as [Q Ar]. split; [now rewrite Bl, <- Bw|exact Ar].
      - split; [constructor; [congruence|exact (Forall_inv_tail Fr)]|]. split; [unfold W; cbn [filter]; now rewrite Bl, Bw|].
        destruct line as [|l0 line0].
        + specialize (Np eq_refl). cbn [concat] in *. rewrite Ech in *. cbn [app concat] in *. rewrite <- Ew, !app_length in L'. destruct part; [congruence|]. cbn [length] in L'. rewrite app_length. lia.
        + specialize (Pl ltac:(discriminate)). cbn [concat] in *. rewrite <- Ew, !app_length in Pl. rewrite app_length. lia. }
    (* no long chunk *)
    assert (Fit : (forall w rest0, rest = w :: rest0 -> length w <= width) ->
      concat (map words (match drop_last_blank line with [] => wrap_chunks fuel width started rest | _ => concat (drop_last_blank line) :: wrap_chunks fuel width true rest end)) = W ch).
    { intro Hr. assert (Pr : length (concat rest) <= fuel).
      { destruct line as [|l0 line0]; [|apply Pl; discriminate]. cbn in Ech. destruct rest as [|w rest0]; [cbn; lia|]. exfalso. apply (Ne w rest0 Ech); [specialize (Hr w rest0 eq_refl); lia|reflexivity]. }
      destruct (drop_last_blank_spec line Al Gl) as (Cut & Wd & _). rewrite Wch, <- Wd.
      assert (Gd : Forall good (drop_last_blank line)). { destruct Cut as [Cut|(b & Cut & _)]; [rewrite Cut; exact Gl|]. rewrite Cut in Gl. apply Forall_app in Gl. apply Gl. }
      assert (Ad : alt (drop_last_blank line)). { destruct Cut as [Cut|(b & Cut & _)]; [rewrite Cut; exact Al|]. rewrite Cut in Al. now apply alt_app_l in Al. }
      destruct (drop_last_blank line) as [|l0 line0]; [apply IH; assumption|]. rewrite map_cons, concat_cons, words_concat by assumption. f_equal. now apply IH. }
    destruct rest as [|w rest0]; [apply Fit; discriminate|]. destruct (Nat.ltb_spec width (length w)) as [Lw|Lw].
    + specialize (Long w rest0 eq_refl Lw). destruct (handle_long_word width (length (concat line)) w) as [part leftover]. destruct Long as (Bp & G2 & A2 & F2 & W2 & P2).
      assert (Ed : drop_last_blank (line ++ [part]) = line) by (unfold drop_last_blank; rewrite rev_app_distr; cbn [rev app]; rewrite Bp; apply rev_involutive). rewrite Ed.
      rewrite Wch, <- W2. destruct line as [|l0 line0]; [apply IH; assumption|]. rewrite map_cons, concat_cons, words_concat by assumption. f_equal. now apply IH.
    + apply Fit. intros w' r' E. injection E as <- <-. exact Lw.
Qed.

(** Chunks of a text whose words have no break points. *)
Fixpoint solid_prefix (t : text) : text := match t with c :: t' => if is_blank c then [] else c :: solid_prefix t' | [] => [] end.
Fixpoint solid_suffix (t : text) : text := match t with c :: t' => if is_blank c then t else solid_suffix t' | [] => [] end.
Lemma solid_split t : t = solid_prefix t ++ solid_suffix t /\ solid (solid_prefix t) = true /\ hd_blank (solid_suffix t) = true.
Proof.
  induction t as [|c t (E & S0 & H)]; [repeat split|]. cbn [solid_prefix solid_suffix]. destruct (is_blank c) eqn:B; [repeat split; cbn; now rewrite ?B|].
  cbn [app]. rewrite <- E. repeat split; [|exact H]. cbn. now rewrite B.
Qed.
Lemma split_from_alt fuel : forall bf t, length t <= fuel -> Forall no_hyphen_break (words t) ->
  alt (split_from fuel bf t) /\ W (split_from fuel bf t) = words t.
Proof.
  induction fuel as [fuel IH] using lt_wf_ind; intros bf t L H.
  assert (Key : alt (split_from fuel bf t)).
  { destruct t as [|c t]; [destruct fuel; exact I|]. destruct fuel as [|fuel]; [cbn in L; lia|].
    destruct (is_blank c) eqn:B.
    - pose proof (spaces_blank (c :: t)) as Sb. pose proof (spaces_end (c :: t)) as Se. pose proof (spaces_le (c :: t)) as Sl. assert (P1 : 1 <= spaces (c :: t)) by (cbn; rewrite space_blank, B; lia).
      set (b := firstn (spaces (c :: t)) (c :: t)) in *. set (r := skipn (spaces (c :: t)) (c :: t)) in *. assert (Et : c :: t = b ++ r) by (symmetry; apply firstn_skipn).
      assert (Lb : 1 <= length b) by (unfold b; rewrite firstn_length; lia).
      rewrite Et in *. rewrite app_length in L. rewrite split_blanks; [|destruct b; [cbn in Lb; lia|discriminate]|exact Sb|exact Se].
      assert (Hr : Forall no_hyphen_break (words r)) by (rewrite words_blank_prefix in H by (rewrite <- blank_spec; exact Sb); exact H).
      destruct (IH fuel ltac:(lia) (rev b ++ bf) r ltac:(lia) Hr) as [A _]. destruct (split_from_spec fuel (rev b ++ bf) r ltac:(lia)) as (_ & _ & _ & Hd).
      destruct (split_from fuel (rev b ++ bf) r) as [|d l] eqn:Es; [exact I|]. destruct (Hd d l eq_refl) as (x & c' & t' & -> & Er). rewrite Er in Se. split; [|exact A].
      rewrite Sb. cbn. rewrite space_blank, Se. discriminate.
    - destruct (solid_split (c :: t)) as (Et & Sp & Hs). set (w := solid_prefix (c :: t)) in *. set (r := solid_suffix (c :: t)) in *.
      assert (Nw : w <> []) by (unfold w; cbn; rewrite B; discriminate). rewrite Et in *. rewrite app_length in L. assert (1 <= length w) by (destruct w; [congruence|cbn; lia]).
      assert (Ww : words (w ++ r) = w :: words r).
      { destruct r as [|d r0]; [rewrite app_nil_r; now apply words_solid|]. cbn in Hs. rewrite words_split by exact Hs. now rewrite (words_solid w Nw Sp). }
      rewrite Ww in H. rewrite split_word by (assumption || exact (Forall_inv H)).
      destruct (IH fuel ltac:(lia) (rev w ++ bf) r ltac:(lia) (Forall_inv_tail H)) as [A _]. destruct (split_from_spec fuel (rev w ++ bf) r ltac:(lia)) as (_ & Gd & _ & Hd).
      destruct (split_from fuel (rev w ++ bf) r) as [|d l] eqn:Es; [exact I|]. destruct (Hd d l eq_refl) as (x & c' & t' & -> & Er). rewrite Er in Hs. cbn in Hs. split; [|exact A].
      rewrite (solid_not_blank w Nw Sp). apply Forall_inv in Gd. destruct Gd as [_ [Gd|Gd]]; [rewrite Gd; discriminate|]. cbn in Gd. rewrite Hs in Gd. discriminate. }
  split; [exact Key|]. destruct (split_from_spec fuel bf t L) as (C & G & _). rewrite <- (words_concat _ G Key). now rewrite C.
Qed.

(** White space. *)
Lemma words_from_expand t : forall cur col, words_from cur (expandtabs col t) = words_from cur t.
Proof.
  induction t as [|c t IH]; intros cur col; [reflexivity|]. cbn [expandtabs]. destruct (Ascii.eqb_spec c "009") as [-> |N].
  - assert (1 <= 8 - col mod 8) by (pose proof (Nat.mod_upper_bound col 8); lia). cbv zeta. set (n := 8 - col mod 8) in *. destruct n as [|n]; [lia|]. cbn [repeat app words_from].
    change (is_blank space) with true. change (is_blank "009"%char) with true. cbv iota. f_equal.
    change (words (repeat space n ++ expandtabs (col + S n) t) = words_from [] t). rewrite words_blank_prefix by apply repeat_blank. apply IH.
  - cbn [words_from]. destruct (is_blank c); [f_equal; apply IH|apply IH].
Qed.
Lemma words_from_map t : forall cur, words_from cur (map (fun c => if is_space c then space else c) t) = words_from cur t.
Proof.
  induction t as [|c t IH]; intro cur; [reflexivity|]. cbn [map words_from]. rewrite space_blank. destruct (is_blank c) eqn:B; [change (is_blank space) with true|rewrite B]; rewrite ?IH; reflexivity.
Qed.
Lemma words_munge t : words (munge t) = words t.
Proof. unfold words, munge. now rewrite words_from_map, words_from_expand. Qed.
Lemma ink_words t : ink t = concat (words t).
Proof.
  assert (G : forall cur, Forall (fun c => is_blank c = false) cur -> cur ++ ink t = concat (words_from cur t)); [|apply (G [] (Forall_nil _))].
  induction t as [|c t IH]; intros cur H; cbn [words_from]; [cbn; rewrite app_nil_r; destruct cur; cbn; now rewrite ?app_nil_r|].
  unfold ink. cbn [filter]. destruct (is_blank c) eqn:B; cbn [negb].
  - rewrite concat_app. fold (ink t). rewrite <- (IH [] (Forall_nil _)). destruct cur; cbn; now rewrite ?app_nil_r.
  - fold (ink t). rewrite <- (IH (cur ++ [c])); [now rewrite <- app_assoc|]. apply Forall_app. split; [exact H|]. now repeat constructor.
Qed.
Lemma ink_munge t : ink (munge t) = ink t.
Proof. now rewrite !ink_words, words_munge. Qed.

(** ** wrap on any text *)
Lemma munge_chars t c : In c (munge t) -> c = space \/ is_blank c = false.
Proof.
  unfold munge. intro H. apply in_map_iff in H. destruct H as (x & <- & _). rewrite space_blank. destruct (is_blank x) eqn:B; [now left|now right].
Qed.
Lemma wrap_any t width : 1 <= width -> exists ls, wrap t width = Ok ls /\ ink (concat ls) = ink t /\
  Forall (fun l => l <> [] /\ length l <= width /\ Forall (fun c => c = space \/ is_blank c = false) l) ls /\
  (Forall (fun w : text => length w <= width /\ no_hyphen_break w) (words t) -> concat (map words ls) = words t).
Proof.
  intro W1. unfold wrap. destruct (Nat.eqb_spec width 0); [lia|]. eexists. split; [reflexivity|]. destruct (split_chunks_spec (munge t)) as (C & G & _). cbv zeta.
  destruct (wrap_chunks_any width (length (concat (split_chunks (munge t)))) W1 false (split_chunks (munge t)) G (le_n _)) as [I1 I2].
  split; [rewrite I1, C; apply ink_munge|]. split.
  - eapply Forall_impl; [|exact I2]. cbv beta. intros l (A1 & A2 & A3). split; [exact A1|]. split; [exact A2|]. apply Forall_forall. intros c Hc. apply (munge_chars t). rewrite <- C. now apply A3.
  - intro H. assert (H1 : Forall no_hyphen_break (words (munge t))) by (rewrite words_munge; eapply Forall_impl; [|exact H]; now intros a [_ Q]).
    destruct (split_from_alt (length (munge t)) [] (munge t) (le_n _) H1) as [A Wd]. fold (split_chunks (munge t)) in A, Wd.
    rewrite wrap_chunks_words; [now rewrite Wd, words_munge|exact W1|exact G|exact A| |lia].
    apply Forall_forall. intros c Hc B. assert (Hw : In c (words t)). { rewrite <- words_munge, <- Wd. apply filter_In. split; [exact Hc|now rewrite B]. }
    rewrite Forall_forall in H. now apply (H c Hw).
Qed.
Lemma words_join_lines ls : words (join [newline] ls) = concat (map words ls).
Proof.
  induction ls as [|l ls IH]; [reflexivity|]. destruct ls as [|k ls]; [cbn; now rewrite app_nil_r|].
  change (join [newline] (l :: k :: ls)) with (l ++ newline :: join [newline] (k :: ls)). rewrite words_split, words_blank_head by reflexivity. rewrite IH. reflexivity.
Qed.
Lemma ink_join_lines ls : ink (join [newline] ls) = ink (concat ls).
Proof.
  induction ls as [|l ls IH]; [reflexivity|]. destruct ls as [|k ls]; [cbn; now rewrite app_nil_r|].
  change (join [newline] (l :: k :: ls)) with (l ++ [newline] ++ join [newline] (k :: ls)). rewrite !ink_app, IH. cbn [concat]. now rewrite !ink_app.
Qed.
Lemma no_nl_line l : Forall (fun c => c = space \/ is_blank c = false) l -> no_nl l.
Proof. apply Forall_impl. intros c [-> |B]; [reflexivity|]. destruct (is_newline c) eqn:E; [|reflexivity]. apply newline_blank in E. congruence. Qed.
Lemma lines_last l : no_nl l -> l <> [] -> lines l = [l].
Proof.
  intros H N. unfold lines. assert (G : forall cur, lines_from cur l = nonempty (cur ++ l)).
  { clear N. induction H as [|c l Hc _ IH]; intro cur; [cbn; now rewrite app_nil_r|]. cbn. rewrite Hc, IH. now rewrite <- app_assoc. }
  rewrite G. destruct l; [congruence|reflexivity].
Qed.
Lemma lines_join ls : Forall (fun l => no_nl l /\ l <> []) ls -> lines (join [newline] ls) = ls.
Proof.
  induction 1 as [|l ls [H N] Hls IH]; [reflexivity|]. destruct ls as [|k ls]; [cbn; now apply lines_last|].
  change (join [newline] (l :: k :: ls)) with (l ++ newline :: join [newline] (k :: ls)). rewrite lines_line by exact H. now rewrite IH.
Qed.

(** ** dedent *)
Lemma join_split t : forall cur, join [newline] (split_lines cur t) = cur ++ t.
Proof.
  induction t as [|c t IH]; intro cur; cbn [split_lines]; [cbn; now rewrite app_nil_r|]. destruct (Ascii.eqb_spec c newline) as [-> |N].
  - assert (E : exists l r, split_lines [] t = l :: r) by (destruct (split_lines [] t) eqn:E; [exfalso; revert E; generalize (@nil ascii); clear; induction t as [|c t IH]; intros cur E; cbn in E; [discriminate|]; destruct (Ascii.eqb c newline); [discriminate|]; now apply IH in E|eauto]).
    destruct E as (l & r & E). specialize (IH []). rewrite E in *. change (join [newline] (cur :: l :: r)) with (cur ++ newline :: join [newline] (l :: r)). rewrite IH. reflexivity.
  - rewrite IH, <- app_assoc. reflexivity.
Qed.
Lemma indent_blank c : is_indent c = true -> is_blank c = true.
Proof. destruct c as [[] [] [] [] [] [] [] []]; vm_compute; congruence. Qed.
Lemma indent_all l : forallb is_indent l = true -> forallb is_blank l = true.
Proof. intro H. apply forallb_forall. intros c Hc. rewrite forallb_forall in H. now apply indent_blank, H. Qed.
Lemma words_clear l : words (clear_blank l) = words l.
Proof. unfold clear_blank. destruct (forallb is_indent l) eqn:E; [|reflexivity]. unfold words at 2. now rewrite words_from_app_word by now apply indent_all. Qed.
Lemma leading_indent l : forallb is_indent (leading l) = true.
Proof. induction l as [|c l IH]; [reflexivity|]. cbn. destruct (is_indent c) eqn:E; [cbn; now rewrite E|reflexivity]. Qed.
Lemma common_indent a b : forallb is_indent a = true -> forallb is_indent (common a b) = true.
Proof.
  revert b; induction a as [|x a IH]; intros [|y b] H; [reflexivity..|]. cbn in *. apply andb_true_iff in H. destruct H as [H1 H2]. destruct (Ascii.eqb x y); [cbn; now rewrite H1, IH|reflexivity].
Qed.
Lemma margin_indent ls : forallb is_indent (margin_of ls) = true.
Proof.
  unfold margin_of. destruct (map leading _) as [|i r] eqn:E; [reflexivity|]. assert (Hi : forallb is_indent i = true).
  { assert (In i (map leading (filter (fun l => negb (forallb is_indent l)) ls))) by (rewrite E; now left). apply in_map_iff in H. destruct H as (x & <- & _). apply leading_indent. }
  clear E. revert i Hi; induction r as [|j r IH]; intros i Hi; [exact Hi|]. cbn. apply IH, common_indent, Hi.
Qed.
Lemma remove_prefix_app m l l' : remove_prefix m l = Some l' -> l = m ++ l'.
Proof.
  revert l; induction m as [|x m IH]; intros l H; [now injection H as ->|]. destruct l as [|y l]; [discriminate|]. cbn in H. destruct (Ascii.eqb_spec x y) as [-> |]; [|discriminate]. cbn. f_equal. now apply IH.
Qed.
Lemma words_cut m l : forallb is_indent m = true -> words (cut_margin m l) = words l.
Proof.
  intro H. unfold cut_margin. destruct (remove_prefix m l) as [l'|] eqn:E; [|reflexivity]. apply remove_prefix_app in E. rewrite E. symmetry. apply words_blank_prefix. now apply indent_all.
Qed.
Lemma words_dedent t : words (dedent t) = words t.
Proof.
  unfold dedent. set (ls := map clear_blank (split_lines [] t)). cbv zeta. rewrite words_join_lines, map_map. rewrite (map_ext _ words (fun l => words_cut _ l (margin_indent ls))).
  unfold ls. rewrite map_map, (map_ext _ words words_clear), <- words_join_lines, join_split. reflexivity.
Qed.

(** ** A short message *)
Lemma fold_left_nil r : fold_left common r [] = [].
Proof. induction r as [|a r IH]; [reflexivity|exact IH]. Qed.
Lemma one_line_split l : one_line l -> forall cur, split_lines cur l = [cur ++ l].
Proof.
  induction 1 as [|c l H _ IH]; intro cur; cbn [split_lines]; [now rewrite app_nil_r|]. destruct (Ascii.eqb_spec c newline); [contradiction|]. rewrite IH. now rewrite <- app_assoc.
Qed.
Lemma neat_one_line t : neat t -> one_line t.
Proof. intros [H _]. eapply Forall_impl; [|exact H]. cbv beta. intros c Hc ->. discriminate (Hc eq_refl). Qed.
Lemma not_indent c : is_blank c = false -> is_indent c = false.
Proof. intro H. destruct (is_indent c) eqn:E; [apply indent_blank in E; congruence|reflexivity]. Qed.
Lemma dedent_neat t : neat t -> dedent t = t.
Proof.
  intros N. pose proof (neat_one_line t N) as L. destruct N as (_ & (c & r & -> & B) & _). unfold dedent. rewrite (one_line_split _ L []). cbn [app map]. cbv zeta.
  assert (C : clear_blank (c :: r) = c :: r) by (unfold clear_blank; cbn [forallb]; now rewrite (not_indent c B)). rewrite C.
  assert (M : margin_of [c :: r] = []). { unfold margin_of. cbn [filter forallb]. rewrite (not_indent c B). cbn [andb negb map leading]. now rewrite (not_indent c B). }
  match goal with |- context [margin_of ?x] => replace (margin_of x) with (@nil ascii) by (symmetry; exact M) end. reflexivity.
Qed.
Lemma munge_neat t : neat t -> munge t = t.
Proof.
  intros (H & _). rewrite Forall_forall in H. unfold munge. rewrite expandtabs_none by (intros c Hc ->; discriminate (H _ Hc eq_refl)).
  rewrite <- (map_id t) at 2. apply map_ext_in. intros c Hc. rewrite space_blank. destruct (is_blank c) eqn:B; [symmetry; now apply H|reflexivity].
Qed.
Lemma take_fit_all width chunks : forall cur, cur + length (concat chunks) <= width -> take_fit width cur chunks = (chunks, []).
Proof.
  induction chunks as [|c r IH]; intros cur H; [reflexivity|]. cbn [concat] in H. rewrite app_length in H. cbn [take_fit]. destruct (Nat.leb_spec (cur + length c) width); [|lia]. rewrite IH by lia. reflexivity.
Qed.
Lemma wrap_neat t : neat t -> length t <= 70 -> wrap t 70 = Ok [t].
Proof.
  intros N L. unfold wrap. cbn [Nat.eqb]. cbv zeta. rewrite (munge_neat t N). destruct (split_chunks_spec t) as (C & G & _). rewrite C. set (ch := split_chunks t) in *.
  destruct N as (_ & (x & r & Ex & Bx) & (r' & y & Ey & By)). destruct ch as [|c cs] eqn:Ec; [cbn in C; congruence|].
  assert (exists l w, c :: cs = l ++ [w]) as (l & w & Elw) by (destruct (exists_last (l := c :: cs)) as (l & w & E); [discriminate|eauto]).
  assert (Bw : blank w = false).
  { rewrite Elw in G. apply Forall_app in G. destruct G as [_ G]. apply Forall_inv in G. destruct G as [Nw [B|S0]]; [|now apply solid_not_blank]. exfalso.
    rewrite Elw, concat_app in C. cbn [concat] in C. rewrite app_nil_r in C. destruct (exists_last Nw) as (w0 & z & Ez). rewrite Ez, app_assoc, Ey in C. apply app_inj_tail in C. destruct C as [_ ->].
    rewrite Ez, blank_spec, forallb_app in B. apply andb_true_iff in B. destruct B as [_ B]. cbn in B. rewrite By in B. discriminate. }
  destruct (length t) as [|n] eqn:Lt; [rewrite Ex in Lt; discriminate|]. cbn [wrap_chunks]. rewrite andb_false_r. rewrite take_fit_all by (rewrite C, Lt; lia). cbv beta iota zeta.
  assert (D : drop_last_blank (c :: cs) = c :: cs) by (unfold drop_last_blank; rewrite Elw at 1; rewrite rev_app_distr; cbn [rev app]; now rewrite Bw). rewrite D, C. destruct n; reflexivity.
Qed.

(** ** Common indentation *)
Lemma unlines_join ls : unlines ls = join [newline] ls.
Proof. induction ls as [|l ls IH]; [reflexivity|]. destruct ls as [|k ls]; [reflexivity|]. change (unlines (l :: k :: ls)) with (l ++ newline :: unlines (k :: ls)). now rewrite IH. Qed.
Lemma split_lines_line l t : one_line l -> forall cur, split_lines cur (l ++ newline :: t) = (cur ++ l) :: split_lines [] t.
Proof.
  induction 1 as [|c l H _ IH]; intro cur; cbn [app split_lines]; [cbn; now rewrite app_nil_r|]. destruct (Ascii.eqb_spec c newline); [contradiction|]. rewrite IH. now rewrite <- app_assoc.
Qed.
Lemma split_unlines ls : ls <> [] -> Forall one_line ls -> split_lines [] (unlines ls) = ls.
Proof.
  intros N. induction 1 as [|l ls H Hls IH]; [congruence|]. destruct ls as [|k ls]; [cbn; now rewrite one_line_split|].
  change (unlines (l :: k :: ls)) with (l ++ newline :: unlines (k :: ls)). rewrite split_lines_line by exact H. cbn [app]. f_equal. apply IH. discriminate.
Qed.
Lemma indentation_all l : indentation l <-> forallb is_indent l = true.
Proof.
  split.
  - intro H. apply forallb_forall. intros c Hc. unfold indentation in H. rewrite Forall_forall in H. destruct (H c Hc) as [-> | ->]; reflexivity.
  - intro H. apply Forall_forall. intros c Hc. rewrite forallb_forall in H. specialize (H c Hc). unfold is_indent in H. apply orb_true_iff in H. destruct H as [H|H]; apply Ascii.eqb_eq in H; auto.
Qed.
Lemma leading_app p l : forallb is_indent p = true -> leading (p ++ l) = p ++ leading l.
Proof. induction p as [|c p IH]; [reflexivity|]. cbn. intro H. apply andb_true_iff in H. destruct H as [-> H]. now rewrite IH. Qed.
Lemma common_app p a b : common (p ++ a) (p ++ b) = p ++ common a b.
Proof. induction p as [|c p IH]; [reflexivity|]. cbn. rewrite Ascii.eqb_refl. now rewrite IH. Qed.
Lemma fold_common_app p r : forall i, fold_left common (map (app p) r) (p ++ i) = p ++ fold_left common r i.
Proof. induction r as [|j r IH]; intro i; [reflexivity|]. cbn. rewrite common_app. apply IH. Qed.
Lemma remove_prefix_shift p m l : remove_prefix (p ++ m) (p ++ l) = remove_prefix m l.
Proof. induction p as [|c p IH]; [reflexivity|]. cbn. now rewrite Ascii.eqb_refl. Qed.
Lemma indented_filter p ls ls' : forallb is_indent p = true -> indented p ls ls' ->
  map leading (filter (fun l => negb (forallb is_indent l)) (map clear_blank ls')) = map (app p) (map leading (filter (fun l => negb (forallb is_indent l)) (map clear_blank ls))).
Proof.
  intros Hp. induction 1 as [|l ls ls' _ IH|l l' ls ls' H1 H2 _ IH]; [reflexivity| |].
  - cbn [map]. unfold clear_blank at 1 3. rewrite forallb_app, Hp. cbn [andb]. destruct (forallb is_indent l) eqn:E; [cbn [filter forallb negb]; exact IH|].
    cbn [filter]. rewrite forallb_app, Hp, E. cbn [andb negb map]. rewrite leading_app by exact Hp. now rewrite IH.
  - apply indentation_all in H1, H2. cbn [map]. unfold clear_blank at 1 3. rewrite H1, H2. exact IH.
Qed.
Definition prefix (a b : text) : Prop := exists c, b = a ++ c.
Lemma prefix_trans a b c : prefix a b -> prefix b c -> prefix a c.
Proof. intros [x ->] [y ->]. exists (x ++ y). now rewrite app_assoc. Qed.
Lemma common_prefix a b : prefix (common a b) a /\ prefix (common a b) b.
Proof.
  revert b; induction a as [|x a IH]; intro b; [split; [now exists []|exists b; reflexivity]|]. destruct b as [|y b]; [split; [exists (x :: a); reflexivity|now exists []]|].
  cbn. destruct (Ascii.eqb_spec x y) as [<- |]; [|split; eexists; reflexivity]. destruct (IH b) as [[u Eu] [v Ev]]. split; [exists u|exists v]; cbn; congruence.
Qed.
Lemma fold_common_prefix r : forall i, prefix (fold_left common r i) i /\ Forall (prefix (fold_left common r i)) r.
Proof.
  induction r as [|j r IH]; intro i; [split; [exists []; cbn; now rewrite app_nil_r|constructor]|]. cbn. destruct (IH (common i j)) as [H1 H2]. destruct (common_prefix i j) as [C1 C2].
  split; [exact (prefix_trans _ _ _ H1 C1)|]. constructor; [exact (prefix_trans _ _ _ H1 C2)|exact H2].
Qed.
Lemma leading_prefix l : prefix (leading l) l.
Proof. induction l as [|c l [r IH]]; [now exists []|]. cbn. destruct (is_indent c); [exists r; cbn; congruence|exists (c :: l); reflexivity]. Qed.
Lemma prefix_remove m l : prefix m l -> remove_prefix m l <> None.
Proof. intros [r ->]. induction m as [|x m IH]; [discriminate|]. cbn. now rewrite Ascii.eqb_refl. Qed.
Lemma dedent_indented p ls ls' : indentation p -> Forall one_line ls -> indented p ls ls' -> dedent (unlines ls') = dedent (unlines ls).
Proof.
  intros Hp L I. apply indentation_all in Hp. assert (L' : Forall one_line ls').
  { assert (Ind : forall q, forallb is_indent q = true -> one_line q) by (intros q Hq; apply Forall_forall; intros c Hc ->; rewrite forallb_forall in Hq; discriminate (Hq _ Hc)).
    revert L. induction I as [|l ls ls' _ IH|l l' ls ls' H1 H2 _ IH]; intro L; [constructor| |]; (constructor; [|apply IH, (Forall_inv_tail L)]).
    - apply Forall_app. split; [now apply Ind|exact (Forall_inv L)].
    - now apply Ind, indentation_all. }
  assert (N : ls = [] \/ ls <> [] /\ ls' <> []) by (destruct I; [now left|right; split; discriminate..]). destruct N as [-> |[N N']]; [inversion I; reflexivity|].
  unfold dedent. rewrite !split_unlines by assumption. cbv zeta. f_equal. unfold margin_of at 1. rewrite (indented_filter p ls ls' Hp I).
  set (ind := map leading (filter (fun l => negb (forallb is_indent l)) (map clear_blank ls))).
  assert (M : margin_of (map clear_blank ls) = match ind with [] => [] | i :: r => fold_left common r i end) by reflexivity. rewrite M.
  destruct ind as [|i r] eqn:Ei; cbn [map].
  - (* no line with text *)
    assert (All : forall q : list text, map leading (filter (fun l : text => negb (forallb is_indent l)) (map clear_blank q)) = [] -> map clear_blank q = map (fun _ : text => @nil ascii) q).
    { intros q Hq. induction q as [|l q IH]; [reflexivity|]. cbn [map] in *. unfold clear_blank in Hq at 1 |- * at 1. destruct (forallb is_indent l) eqn:E; [f_equal; now apply IH|].
      cbn [filter] in Hq. rewrite E in Hq. discriminate. }
    assert (Ei' : map leading (filter (fun l : text => negb (forallb is_indent l)) (map clear_blank ls')) = []).
    { etransitivity; [exact (indented_filter p ls ls' Hp I)|]. unfold ind in Ei. exact (f_equal (map (app p)) Ei). }
    rewrite (All ls Ei), (All ls' Ei').
    rewrite !map_map. clear - I. induction I; [reflexivity|cbn; now f_equal..].
  - rewrite fold_common_app. set (m := fold_left common r i).
    assert (Pm : Forall (fun l => forallb is_indent l = false -> remove_prefix m l <> None) ls).
    { apply Forall_forall. intros l Hl Hn. apply prefix_remove. apply (prefix_trans _ (leading l)); [|apply leading_prefix].
      assert (Hi : In (leading l) (i :: r)).
      { rewrite <- Ei. unfold ind. apply in_map, filter_In. split; [|now rewrite Hn]. apply in_map_iff. exists l. split; [|exact Hl]. unfold clear_blank. now rewrite Hn. }
      destruct (fold_common_prefix r i) as [F1 F2]. rewrite Forall_forall in F2. destruct Hi as [<- |Hi]; [exact F1|now apply F2]. }
    clear M Ei. clearbody m. clear ind N N' L L'.
    induction I as [|l ls ls' I IH|l l' ls ls' H1 H2 I IH]; [reflexivity| |]; cbn [map]; (f_equal; [|apply IH; exact (Forall_inv_tail Pm)]).
    + apply Forall_inv in Pm. unfold clear_blank. rewrite forallb_app, Hp. cbn [andb]. destruct (forallb is_indent l); [|unfold cut_margin; rewrite remove_prefix_shift; specialize (Pm eq_refl); destruct (remove_prefix m l); [reflexivity|congruence]].
      unfold cut_margin. destruct p as [|x p]; [reflexivity|]. cbn. destruct m; reflexivity.
    + apply indentation_all in H1, H2. unfold clear_blank. rewrite H1, H2. unfold cut_margin. destruct p as [|x p]; [reflexivity|]. cbn. destruct m; reflexivity.
Qed.

(** ** _text_wrap on any text *)
(** No piece without a line feed is longer than N. *)
Definition short (N : nat) (t : text) : Prop := forall a l b, t = a ++ l ++ b -> no_nl l -> length l <= N.
Lemma short_lines N t : short N t -> Forall (fun l : text => length l <= N) (lines t).
Proof.
  unfold lines. assert (G : forall cur, no_nl cur -> short N (cur ++ t) -> Forall (fun l : text => length l <= N) (lines_from cur t)); [|intro H; apply (G []); [constructor|exact H]].
  induction t as [|c t IH]; intros cur Hc H; cbn [lines_from].
  - destruct cur as [|x cur]; [constructor|]. constructor; [|constructor]. apply (H [] (x :: cur) []); [now rewrite !app_nil_r|exact Hc].
  - destruct (is_newline c) eqn:E.
    + constructor; [apply (H [] cur (c :: t)); [reflexivity|exact Hc]|]. apply IH; [constructor|]. intros a l b Et Hl. apply (H (cur ++ c :: a) l b); [|exact Hl]. cbn [app] in Et. rewrite Et, <- app_assoc. reflexivity.
    + apply IH; [apply Forall_app; split; [exact Hc|now repeat constructor]|]. now rewrite <- app_assoc.
Qed.
Lemma no_nl_in l : no_nl l -> ~ In newline l.
Proof. intros H Hi. unfold no_nl in H. rewrite Forall_forall in H. discriminate (H _ Hi). Qed.
Lemma piece_before l : no_nl l -> forall b x y, l ++ b = x ++ newline :: y -> exists b', x = l ++ b'.
Proof.
  induction 1 as [|c l Hc _ IH]; intros b x y E; [now exists x|]. destruct x as [|d x]; cbn in E; injection E as E1 E2; [subst c; discriminate|]. destruct (IH b x y E2) as [b' ->]. exists b'. cbn. congruence.
Qed.
Lemma short_join N x y : short N x -> short N y -> short N (x ++ newline :: y).
Proof.
  intros Hx Hy a l b E Hl. revert a E. assert (G : forall z a, z ++ newline :: y = a ++ l ++ b -> (forall b', (exists a', z = a' ++ l ++ b') -> length l <= N) -> length l <= N).
  { induction z as [|c z IH]; intros a E K.
    - destruct a as [|d a].
      + cbn in E. destruct l as [|c l]; [cbn; lia|]. injection E as <- _. exfalso. apply (no_nl_in _ Hl). now left.
      + injection E as _ E. apply (Hy a l b E Hl).
    - destruct a as [|d a].
      + cbn [app] in E. destruct (piece_before l Hl b (c :: z) y (eq_sym E)) as [b' Eb]. apply (K b'). now exists [].
      + injection E as -> E. apply (IH a E). intros b' [a' Ea]. apply (K b'). exists (d :: a'). cbn. congruence. }
  intros a E. apply (G x a E). intros b' [a' Ea]. apply (Hx a' l b' Ea Hl).
Qed.
Lemma short_line N l : length l <= N -> short N l.
Proof. intros H a x b -> _. rewrite !app_length in H. lia. Qed.
Lemma short_joined N ls : Forall (fun l : text => length l <= N) ls -> short N (join [newline] ls).
Proof.
  induction 1 as [|l ls H _ IH]; [apply short_line; cbn; lia|]. destruct ls as [|k ls]; [now apply short_line|].
  change (join [newline] (l :: k :: ls)) with (l ++ newline :: join [newline] (k :: ls)). apply short_join; [now apply short_line|exact IH].
Qed.
Lemma lstrip_suffix t : exists p, t = p ++ lstrip t /\ forallb is_blank p = true.
Proof. induction t as [|c t (p & E & B)]; [now exists []|]. cbn. destruct (is_space c) eqn:H; [|now exists []]. exists (c :: p). split; [cbn; now rewrite <- E|]. cbn. now rewrite <- space_blank, H. Qed.
Lemma strip_piece t : exists p q, t = p ++ strip t ++ q /\ forallb is_blank p = true /\ forallb is_blank q = true.
Proof.
  unfold strip. destruct (lstrip_suffix t) as (p & E & B). destruct (lstrip_suffix (rev (lstrip t))) as (q & Eq & Bq). exists p, (rev q). split; [|split; [exact B|]].
  - apply (f_equal (@rev ascii)) in Eq. rewrite rev_involutive, rev_app_distr in Eq. rewrite <- Eq. exact E.
  - apply forallb_forall. intros c Hc. apply in_rev in Hc. rewrite forallb_forall in Bq. now apply Bq.
Qed.
Lemma ink_strip t : ink (strip t) = ink t.
Proof.
  destruct (strip_piece t) as (p & q & E & Bp & Bq). rewrite E at 2. rewrite !ink_app. rewrite <- blank_spec in Bp, Bq. now rewrite (ink_blank p Bp), (ink_blank q Bq), app_nil_r.
Qed.
Lemma short_piece N p t q : short N (p ++ t ++ q) -> short N t.
Proof. intros H a l b -> Hl. apply (H (p ++ a) l (b ++ q)); [|exact Hl]. now rewrite <- !app_assoc. Qed.
Lemma text_wrap_any t indent width n : 6 <= indent -> 1 <= width -> exists t', text_wrap t indent width n = Ok t' /\ ink t' = ink t /\ short (indent + width) t'.
Proof.
  intros I W1. unfold text_wrap. destruct (Nat.ltb_spec indent 6); [lia|]. destruct (wrap_any t width W1) as (ls & E & Ik & F & _). rewrite E. cbn [bind]. eexists. split; [reflexivity|]. split.
  - rewrite ink_app, ink_strip, ink_join_lines, <- Ik. assert (Z : ink (repeat newline n) = []) by (clear; induction n; [reflexivity|exact IHn]). rewrite Z, app_nil_r.
    clear. unfold indent_lines. induction ls as [|l ls IH]; [reflexivity|]. cbn [map concat]. rewrite !ink_app, IH. f_equal. destruct (blank l); [reflexivity|]. rewrite ink_app, ink_blank; [reflexivity|]. rewrite blank_spec. apply repeat_blank.
  - assert (Sh : short (indent + width) (strip (join [newline] (indent_lines (repeat space indent) ls)))).
    { destruct (strip_piece (join [newline] (indent_lines (repeat space indent) ls))) as (p & q & Ep & _). apply (short_piece _ p _ q). rewrite <- Ep. apply short_joined. unfold indent_lines. apply Forall_map.
      eapply Forall_impl; [|exact F]. cbv beta. intros l (_ & L & _). destruct (blank l); [lia|]. rewrite app_length, repeat_length. lia. }
    clear - Sh. revert Sh. generalize (strip (join [newline] (indent_lines (repeat space indent) ls))). intros u Hu. destruct n as [|n]; [cbn; now rewrite app_nil_r|]. cbn [repeat]. apply short_join; [exact Hu|].
    clear. induction n as [|n IH]; [apply short_line; cbn; lia|]. apply (short_join _ [] (repeat newline n)); [apply short_line; cbn; lia|exact IH].
Qed.
