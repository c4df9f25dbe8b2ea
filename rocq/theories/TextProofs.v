(** Lemmas about text wrapping and reading. *)
From Coq Require Import Ascii String List Bool Arith Lia.
From Verif Require Import Base TextWrap SpecText.
Local Open Scope nat_scope.

Lemma space_blank c : is_space c = is_blank c.
Proof. destruct c as [[] [] [] [] [] [] [] []]; reflexivity. Qed.
Lemma plain_not_blank c : plain c -> is_blank c = false.
Proof.
  intros [H _]. rewrite <- space_blank. unfold is_space. destruct (Nat.eqb_spec (nat_of_ascii c) 32); [lia|].
  destruct (Nat.leb_spec 9 (nat_of_ascii c)), (Nat.leb_spec (nat_of_ascii c) 13); cbn; auto; lia.
Qed.
Lemma newline_blank c : is_newline c = true -> is_blank c = true.
Proof. destruct c as [[] [] [] [] [] [] [] []]; vm_compute; congruence. Qed.
Arguments is_blank : simpl never.
Arguments is_space : simpl never.
Arguments is_newline : simpl never.

(** ** Words *)
Lemma words_from_app_word cur a : forallb is_blank a = true -> words_from cur a = nonempty cur.
Proof.
  revert cur; induction a as [|c a IH]; intros cur H; [reflexivity|]. cbn in *. apply andb_true_iff in H. destruct H as [-> H].
  rewrite IH by exact H. now rewrite app_nil_r.
Qed.
Lemma words_from_blank cur a c b : is_blank c = true -> words_from cur (a ++ c :: b) = words_from cur a ++ words b.
Proof.
  intro Hc. revert cur; induction a as [|x a IH]; intro cur; cbn [app words_from]; [now rewrite Hc|].
  destruct (is_blank x); rewrite IH; [now rewrite app_assoc|reflexivity].
Qed.
Lemma words_blank_head c b : is_blank c = true -> words (c :: b) = words b.
Proof. intro H. unfold words at 1. cbn [words_from]. now rewrite H. Qed.
Lemma words_split a c b : is_blank c = true -> words (a ++ c :: b) = words a ++ words (c :: b).
Proof. intro H. unfold words at 1. rewrite words_from_blank by exact H. now rewrite words_blank_head. Qed.
Lemma words_blank_prefix a b : forallb is_blank a = true -> words (a ++ b) = words b.
Proof. induction a as [|c a IH]; [reflexivity|]. cbn [forallb]. intro H. apply andb_true_iff in H. destruct H as [H1 H2]. cbn [app]. rewrite words_blank_head by exact H1. auto. Qed.
Lemma words_from_solid cur w : forallb (fun c => negb (is_blank c)) w = true -> words_from cur w = nonempty (cur ++ w).
Proof.
  revert cur; induction w as [|c w IH]; intros cur H; cbn; [now rewrite app_nil_r|]. cbn in H. apply andb_true_iff in H. destruct H as [H1 H2].
  apply negb_true_iff in H1. rewrite H1, IH by exact H2. now rewrite <- app_assoc.
Qed.
Lemma words_solid w : w <> [] -> forallb (fun c => negb (is_blank c)) w = true -> words w = [w].
Proof. intros N H. unfold words. rewrite words_from_solid by exact H. destruct w; [congruence|reflexivity]. Qed.

(** ** Chunks *)
Definition solid (w : text) : bool := forallb (fun c => negb (is_blank c)) w.
Definition good (c : text) : Prop := c <> [] /\ (blank c = true \/ solid c = true).
Fixpoint alt (l : list text) : Prop :=
  match l with
  | a :: ((b :: _) as l') => blank a <> blank b /\ alt l'
  | _ => True
  end.
Definition W (l : list text) : list text := filter (fun c => negb (blank c)) l.

Lemma blank_spec c : blank c = forallb is_blank c.
Proof. unfold blank. induction c as [|x c IH]; [reflexivity|]. cbn. now rewrite space_blank, IH. Qed.
Lemma solid_not_blank c : c <> [] -> solid c = true -> blank c = false.
Proof. intros N H. rewrite blank_spec. destruct c as [|x c]; [congruence|]. cbn in *. apply andb_true_iff in H. destruct H as [H _]. apply negb_true_iff in H. now rewrite H. Qed.
Lemma alt_tail a l : alt (a :: l) -> alt l.
Proof. destruct l; [constructor|]. intros [_ H]. exact H. Qed.
Lemma alt_app_l l l' : alt (l ++ l') -> alt l.
Proof. induction l as [|a l IH]; [constructor|]. destruct l as [|b l]; [constructor|]. cbn [app alt]. intros [H H']. split; [exact H|]. apply IH, H'. Qed.
Lemma alt_app_r l l' : alt (l ++ l') -> alt l'.
Proof. induction l as [|a l IH]; [auto|]. cbn [app]. intro H. apply IH, (alt_tail a), H. Qed.

Lemma words_concat l : Forall good l -> alt l -> words (concat l) = W l.
Proof.
  induction l as [|a l IH]; intros G A; [reflexivity|]. cbn [concat]. assert (Ga := Forall_inv G). assert (Gl := Forall_inv_tail G). specialize (IH Gl (alt_tail a l A)).
  destruct Ga as [Na [Ba|Sa]].
  - unfold W in *. cbn [filter]. rewrite Ba. cbn [negb]. rewrite <- IH. apply words_blank_prefix. now rewrite <- blank_spec.
  - pose proof (solid_not_blank a Na Sa) as Ba. unfold W in *. cbn [filter]. rewrite Ba. cbn [negb].
    destruct l as [|b l]; [cbn [concat app filter]; rewrite app_nil_r; now apply words_solid|].
    destruct A as [A _]. assert (Gb := Forall_inv Gl). destruct Gb as [Nb [Bb|Sb]]; [|rewrite (solid_not_blank b Nb Sb), Ba in A; congruence].
    rewrite <- IH. destruct b as [|x b]; [congruence|]. cbn [concat app]. rewrite words_split.
    + cbn [filter] in *. rewrite Bb in *. cbn [negb] in *. change (a :: words (x :: b ++ concat l)) with ([a] ++ words (x :: b ++ concat l)). f_equal. now apply words_solid.
    + rewrite blank_spec in Bb. cbn in Bb. apply andb_true_iff in Bb. apply Bb.
Qed.

(** ** Chunks of single-spaced words *)
Fixpoint spaced (l : list text) : list text :=
  match l with [] => [] | [x] => [x] | x :: l' => x :: [space] :: spaced l' end.
Lemma spaced_cons w v ws : spaced (w :: v :: ws) = w :: [space] :: spaced (v :: ws).
Proof. reflexivity. Qed.
(** *** Chunks of any text *)
Definition hd_blank (t : text) : bool := match t with c :: _ => is_blank c | [] => true end.
Lemma word_rest_le bf t : word_rest bf t <= length t.
Proof.
  revert bf; induction t as [|c t IH]; intro bf; cbn [word_rest length]; [lia|]. destruct (is_space c); [lia|]. destruct (_ && _); [lia|]. destruct (_ && _); [lia|]. specialize (IH (c :: bf)). lia.
Qed.
Lemma hyphen_not_blank c : is_hyphen c = true -> is_blank c = false.
Proof. destruct c as [[] [] [] [] [] [] [] []]; vm_compute; congruence. Qed.
Lemma word_rest_solid bf t : solid (firstn (word_rest bf t) t) = true.
Proof.
  revert bf; induction t as [|c t IH]; intro bf; [reflexivity|]. cbn [word_rest]. rewrite space_blank. destruct (is_blank c) eqn:B; [reflexivity|].
  destruct (is_hyphen c && hyphen_break bf t) eqn:H; [cbn; now rewrite B|]. destruct (punct_before bf && dash_ahead (c :: t)); [reflexivity|]. cbn [firstn solid forallb]. rewrite B. apply IH.
Qed.
Lemma hyphens_le t : hyphens t <= length t.
Proof. induction t as [|c t IH]; cbn; [lia|]. destruct (is_hyphen c); lia. Qed.
Lemma hyphens_solid t : solid (firstn (hyphens t) t) = true.
Proof. induction t as [|c t IH]; [reflexivity|]. cbn [hyphens]. destruct (is_hyphen c) eqn:H; [|reflexivity]. cbn [firstn solid forallb]. rewrite (hyphen_not_blank c H). exact IH. Qed.
Lemma spaces_le t : spaces t <= length t.
Proof. induction t as [|c t IH]; cbn; [lia|]. destruct (is_space c); lia. Qed.
Lemma spaces_blank t : blank (firstn (spaces t) t) = true.
Proof. induction t as [|c t IH]; [reflexivity|]. cbn [spaces]. destruct (is_space c) eqn:H; [|reflexivity]. cbn [firstn blank forallb]. rewrite H. exact IH. Qed.
Lemma spaces_end t : match skipn (spaces t) t with c :: _ => is_blank c = false | [] => True end.
Proof. induction t as [|c t IH]; [exact I|]. cbn [spaces]. destruct (is_space c) eqn:H; [exact IH|]. cbn [skipn]. now rewrite <- space_blank. Qed.
(** A chunk is not empty, is all blank or without blanks, and a blank chunk goes up to the next word. *)
Lemma chunk_length_spec bf c t : let n := chunk_length bf (c :: t) in
  (1 <= n <= length (c :: t)) /\ good (firstn n (c :: t)) /\
  (blank (firstn n (c :: t)) = true -> match skipn n (c :: t) with d :: _ => is_blank d = false | [] => True end).
Proof.
  cbv zeta. unfold chunk_length. rewrite space_blank. destruct (is_blank c) eqn:B.
  - pose proof (spaces_le (c :: t)). pose proof (spaces_blank (c :: t)). pose proof (spaces_end (c :: t)). assert (1 <= spaces (c :: t)) by (cbn; rewrite space_blank, B; lia).
    split; [lia|]. split; [|auto]. split; [|now left]. destruct (spaces (c :: t)); [lia|discriminate].
  - assert (G : forall n, (1 <= n <= length (c :: t)) -> solid (firstn n (c :: t)) = true -> (1 <= n <= length (c :: t)) /\ good (firstn n (c :: t)) /\
  (blank (firstn n (c :: t)) = true -> match skipn n (c :: t) with d :: _ => is_blank d = false | [] => True end)).
    { intros n Hn S0. assert (N : firstn n (c :: t) <> []) by (destruct n; [lia|discriminate]). split; [exact Hn|]. split; [split; [exact N|now right]|].
      rewrite (solid_not_blank _ N S0). discriminate. }
    destruct (punct_before bf && dash_ahead (c :: t)) eqn:D.
    + apply G; [|apply hyphens_solid]. pose proof (hyphens_le (c :: t)). apply andb_true_iff in D. destruct D as [_ D]. unfold dash_ahead in D. apply andb_true_iff in D. destruct D as [D _]. apply Nat.leb_le in D. lia.
    + apply G; [pose proof (word_rest_le (c :: bf) t); cbn [length]; lia|]. cbn [firstn solid forallb]. rewrite B. apply word_rest_solid.
Qed.
(** No two neighbouring blank chunks. *)
Fixpoint apart (l : list text) : Prop :=
  match l with
  | a :: ((b :: _) as l') => (blank a = true -> blank b = false) /\ apart l'
  | _ => True
  end.
Lemma split_from_spec fuel : forall bf t, length t <= fuel ->
  concat (split_from fuel bf t) = t /\ Forall good (split_from fuel bf t) /\ apart (split_from fuel bf t) /\
  (forall c l, split_from fuel bf t = c :: l -> exists x c' t', c = x :: c' /\ t = x :: t').
Proof.
  induction fuel as [|fuel IH]; intros bf t L.
  - destruct t; [|cbn in L; lia]. cbn. repeat split; try constructor. discriminate.
  - destruct t as [|c t]; [cbn; repeat split; try constructor; discriminate|]. cbn [split_from]. destruct (chunk_length_spec bf c t) as (Hn & G & E). set (n := chunk_length bf (c :: t)) in *.
    destruct (IH (rev (firstn n (c :: t)) ++ bf) (skipn n (c :: t))) as (C & F & A & Hd); [rewrite skipn_length; lia|].
    split; [cbn [concat]; rewrite C; apply firstn_skipn|]. split; [now constructor|]. split.
    + destruct (split_from fuel _ _) as [|d l] eqn:Es; [exact I|]. split; [|exact A]. intro Bl. specialize (E Bl). destruct (Hd d l eq_refl) as (x & c' & t' & Ed & Et). rewrite Et in E.
      subst d. cbn. now rewrite space_blank, E.
    + intros c0 l E0. injection E0 as <- _. destruct n as [|n]; [lia|]. cbn [firstn]. eauto.
Qed.
Lemma split_chunks_spec t : concat (split_chunks t) = t /\ Forall good (split_chunks t) /\ apart (split_chunks t).
Proof. destruct (split_from_spec (length t) [] t (le_n _)) as (A & B & C & _). auto. Qed.

(** *** A word without break points is one chunk *)
Lemma is_letter_spec c : is_letter c = true -> letter c.
Proof.
  unfold is_letter, between, letter. intro H. apply orb_true_iff in H. destruct H as [H|H]; [apply orb_true_iff in H; destruct H as [H|H]; apply andb_true_iff in H; rewrite !Nat.leb_le in H; tauto|].
  apply Ascii.eqb_eq in H. tauto.
Qed.
Lemma is_letter_solid c : is_letter c = true -> is_blank c = false.
Proof. revert c. intros [[] [] [] [] [] [] [] []]; vm_compute; auto. Qed.
Lemma unbroken_dash p w r : unbroken p w -> hd_blank r = true -> dash_ahead (w ++ r) = false.
Proof.
  intros H Hr. assert (R0 : hyphens r = 0). { destruct r as [|c r]; [reflexivity|]. cbn in *. destruct (is_hyphen c) eqn:E; [|reflexivity]. rewrite (hyphen_not_blank c E) in Hr. discriminate. }
  unfold dash_ahead. destruct (Nat.leb_spec 2 (hyphens (w ++ r))) as [L|L]; [|reflexivity]. exfalso.
  destruct w as [|c w]; [cbn [app] in L; lia|]. cbn [app hyphens] in L. destruct (is_hyphen c) eqn:Ec; [|lia]. unfold is_hyphen in Ec. apply Ascii.eqb_eq in Ec.
  destruct H as [H _]. specialize (H Ec). destruct w as [|d w]; [cbn [app] in L; lia|]. cbn [app hyphens] in L. destruct (is_hyphen d) eqn:Ed; [|lia].
  unfold is_hyphen in Ed. apply Ascii.eqb_eq in Ed. destruct H. contradiction.
Qed.
Lemma unbroken_hyphen p c w r bf : unbroken (Some p) (c :: w) -> hd_blank r = true -> is_hyphen c && hyphen_break (p :: bf) (w ++ r) = false.
Proof.
  intros [H _] Hr. destruct (is_hyphen c) eqn:Ec; [|reflexivity]. unfold is_hyphen in Ec. apply Ascii.eqb_eq in Ec. specialize (H Ec). cbn [andb]. unfold hyphen_break.
  destruct w as [|d w].
  - apply andb_false_iff. right. cbn [app]. destruct r as [|a1 [|a2 r]]; [reflexivity|reflexivity|]. cbn in Hr. destruct (is_letter a1) eqn:E; [|reflexivity]. apply is_letter_solid in E. congruence.
  - cbn [app]. destruct H as [_ H]. destruct (is_letter d) eqn:E; [|apply andb_false_iff; right; destruct (w ++ r); reflexivity].
    apply andb_false_iff. left. destruct bf as [|b2 bf]; [reflexivity|]. destruct (is_letter p) eqn:Ep; [|reflexivity]. exfalso. apply (H (is_letter_spec d E) (is_letter_spec p Ep)).
Qed.
Lemma word_rest_whole w r : solid w = true -> hd_blank r = true -> forall p bf, unbroken (Some p) w -> word_rest (p :: bf) (w ++ r) = length w.
Proof.
  intros S0 Hr. induction w as [|c w IH]; intros p bf H.
  - cbn [app length]. destruct r as [|c r]; [reflexivity|]. cbn in *. now rewrite space_blank, Hr.
  - cbn [app word_rest length]. cbn in S0. apply andb_true_iff in S0. destruct S0 as [S1 S0]. apply negb_true_iff in S1. rewrite space_blank, S1.
    rewrite (unbroken_hyphen p c w r bf H Hr). change (c :: w ++ r) with ((c :: w) ++ r). rewrite (unbroken_dash _ (c :: w) r H Hr), andb_false_r. f_equal. apply IH; [exact S0|apply H].
Qed.
(** A sufficient condition: hyphens are minus signs, each is followed by a digit or ends the word. *)
Fixpoint minus_signs (t : text) : Prop :=
  match t with
  | [] => True
  | c :: t' => (c = "-"%char -> match t' with [] => True | d :: _ => 48 <= nat_of_ascii d <= 57 end) /\ minus_signs t'
  end.
Lemma minus_signs_ok t : minus_signs t -> no_hyphen_break t.
Proof.
  unfold no_hyphen_break. generalize (@None ascii). induction t as [|c t IH]; intros p H; [exact I|]. destruct H as [H1 H2]. split; [|now apply IH].
  intro Ec. specialize (H1 Ec). destruct t as [|d t]; [exact I|]. split; [intros ->; cbv in H1; lia|]. intro L. exfalso. destruct L as [L|[L| ->]]; [lia|lia|cbv in H1; lia].
Qed.
Lemma firstn_len_app {A} (a b : list A) : firstn (length a) (a ++ b) = a.
Proof. rewrite firstn_app, Nat.sub_diag, firstn_all. cbn. apply app_nil_r. Qed.
Lemma skipn_len_app {A} (a b : list A) : skipn (length a) (a ++ b) = b.
Proof. rewrite skipn_app, Nat.sub_diag, skipn_all. reflexivity. Qed.
Lemma split_word fuel bf w r : w <> [] -> solid w = true -> no_hyphen_break w -> hd_blank r = true ->
  split_from (S fuel) bf (w ++ r) = w :: split_from fuel (rev w ++ bf) r.
Proof.
  intros N S0 H Hr. assert (E : chunk_length bf (w ++ r) = length w).
  { destruct w as [|c w]; [congruence|]. cbn [app chunk_length]. cbn in S0. apply andb_true_iff in S0. destruct S0 as [S1 S0]. apply negb_true_iff in S1. rewrite space_blank, S1.
    change (c :: w ++ r) with ((c :: w) ++ r). rewrite (unbroken_dash None (c :: w) r H Hr), andb_false_r. cbn [length]. f_equal. apply word_rest_whole; [exact S0|exact Hr|exact (proj2 H)]. }
  destruct w as [|c w]; [congruence|]. change ((c :: w) ++ r) with (c :: w ++ r) in *. cbn [split_from]. rewrite E. change (c :: w ++ r) with ((c :: w) ++ r). now rewrite firstn_len_app, skipn_len_app.
Qed.
Lemma split_blanks fuel bf b r : b <> [] -> blank b = true -> (match r with c :: _ => is_blank c = false | [] => True end) ->
  split_from (S fuel) bf (b ++ r) = b :: split_from fuel (rev b ++ bf) r.
Proof.
  intros N B Hr. assert (E : chunk_length bf (b ++ r) = length b).
  { assert (Sp : spaces (b ++ r) = length b).
    { clear N. induction b as [|c b IH]; [cbn [app length]; destruct r as [|c r]; [reflexivity|]; cbn; now rewrite space_blank, Hr|]. cbn in B. apply andb_true_iff in B. destruct B as [B1 B]. cbn. rewrite B1. f_equal. now apply IH. }
    destruct b as [|c b]; [congruence|]. cbn in B. apply andb_true_iff in B. destruct B as [B1 B]. cbn [app chunk_length]. rewrite B1. exact Sp. }
  destruct b as [|c b]; [congruence|]. change ((c :: b) ++ r) with (c :: b ++ r) in *. cbn [split_from]. rewrite E. change (c :: b ++ r) with ((c :: b) ++ r). now rewrite firstn_len_app, skipn_len_app.
Qed.
Lemma plain_solid w : plain_word w -> solid w = true.
Proof. intros [_ H]. unfold solid. apply forallb_forall. intros c Hc. rewrite Forall_forall in H. now rewrite (plain_not_blank c (H c Hc)). Qed.
Lemma split_spaced ws : Forall plain_word ws -> Forall no_hyphen_break ws -> split_chunks (join [space] ws) = spaced ws.
Proof.
  intros P B. unfold split_chunks. assert (G : forall fuel bf, length (join [space] ws) <= fuel -> split_from fuel bf (join [space] ws) = spaced ws); [|apply G; lia].
  induction P as [|w ws Hw Hws IH]; intros fuel bf L; [destruct fuel; reflexivity|]. specialize (IH (Forall_inv_tail B)). apply Forall_inv in B. pose proof (plain_solid w Hw) as Sw. destruct Hw as [Nw _].
  destruct ws as [|v ws].
  - cbn [join spaced] in *. destruct w as [|c w]; [congruence|]. destruct fuel as [|fuel]; [cbn in L; lia|]. rewrite <- (app_nil_r (c :: w)) at 1. rewrite split_word by (assumption || reflexivity). destruct fuel; reflexivity.
  - change (join [space] (w :: v :: ws)) with (w ++ [space] ++ join [space] (v :: ws)) in *. rewrite spaced_cons. rewrite !app_length in L. destruct w as [|c w]; [congruence|]. cbn [length] in L. destruct fuel as [|[|fuel]]; [lia|lia|].
    rewrite split_word by (assumption || reflexivity). f_equal. rewrite split_blanks; [f_equal; apply IH; lia|discriminate|reflexivity|].
    assert (Hv := Forall_inv Hws). destruct Hv as [Nv Hv]. destruct v as [|x v]; [congruence|]. apply Forall_inv in Hv. destruct ws; exact (plain_not_blank x Hv).
Qed.
Lemma alt_space q : alt q -> (forall c l, q = c :: l -> blank c = false) -> alt ([space] :: q).
Proof. intros A Hh. destruct q as [|x l]; [exact I|]. split; [rewrite (Hh x l eq_refl); discriminate|exact A]. Qed.
Lemma spaced_good ws : Forall plain_word ws -> Forall good (spaced ws) /\ alt (spaced ws) /\ W (spaced ws) = ws /\
  (forall c l, spaced ws = c :: l -> blank c = false).
Proof.
  assert (Sol : forall w, plain_word w -> solid w = true).
  { intros w [_ H]. unfold solid. apply forallb_forall. intros c Hc. rewrite Forall_forall in H. now rewrite (plain_not_blank c (H c Hc)). }
  induction 1 as [|w ws Hw Hws (G & A & Hf & Hh)]; [repeat split; try constructor; discriminate|].
  assert (Gw : good w) by (split; [apply Hw|right; now apply Sol]). assert (Bw : blank w = false) by (apply solid_not_blank; [apply Hw|now apply Sol]).
  destruct ws as [|v ws].
  - cbn [spaced]. repeat split; try (constructor; [exact Gw|constructor]). { unfold W. cbn [filter]. now rewrite Bw. } intros c l E. injection E as <- <-. exact Bw.
  - rewrite spaced_cons. assert (Gs : good [space]) by (split; [discriminate|now left]).
    split; [constructor; [exact Gw|constructor; [exact Gs|exact G]]|]. split; [|split].
    + split; [now rewrite Bw|]. apply alt_space; assumption.
    + unfold W in *. cbn [filter]. rewrite Bw. cbn [negb blank forallb]. change (is_space space) with true. cbn [andb negb]. f_equal. exact Hf.
    + intros c l E. injection E as <- <-. exact Bw.
Qed.
Lemma spaced_fit ws width : 1 <= width -> Forall (fun w : text => length w <= width) ws -> Forall (fun c : text => length c <= width) (spaced ws).
Proof.
  intro Hw. induction 1 as [|w ws H _ IH]; [constructor|]. destruct ws as [|v ws]; [constructor; [exact H|constructor]|].
  rewrite spaced_cons. constructor; [exact H|]. constructor; [exact Hw|exact IH].
Qed.

(** ** Wrapping *)
Lemma take_fit_spec width chunks : forall cur line rest, cur <= width -> take_fit width cur chunks = (line, rest) ->
  chunks = line ++ rest /\ cur + length (concat line) <= width /\ (forall c r, chunks = c :: r -> cur + length c <= width -> line <> []).
Proof.
  induction chunks as [|c r IH]; intros cur line rest Hc E; cbn [take_fit] in E.
  - injection E as <- <-. cbn. split; [reflexivity|]. split; [lia|discriminate].
  - destruct (Nat.leb_spec (cur + length c) width) as [L|L].
    + destruct (take_fit width (cur + length c) r) as [l0 r0] eqn:E0. injection E as <- <-. destruct (IH _ _ _ L E0) as (-> & B & _).
      split; [reflexivity|]. split; [cbn [concat]; rewrite app_length; lia|]. discriminate.
    + injection E as <- <-. cbn. split; [reflexivity|]. split; [lia|]. intros c0 r0 E1 L1. injection E1 as <- <-. lia.
Qed.
Lemma drop_last_blank_spec l : alt l -> Forall good l ->
  (drop_last_blank l = l \/ exists b, l = drop_last_blank l ++ [b] /\ blank b = true) /\ W (drop_last_blank l) = W l /\
  (drop_last_blank l <> [] -> exists l' w, drop_last_blank l = l' ++ [w] /\ blank w = false).
Proof.
  intros A G. unfold drop_last_blank. destruct (rev l) as [|c r] eqn:E.
  - assert (l = []) as -> by (rewrite <- (rev_involutive l), E; reflexivity). split; [now left|]. split; [reflexivity|congruence].
  - assert (El : l = rev r ++ [c]) by (rewrite <- (rev_involutive l), E; reflexivity).
    destruct (blank c) eqn:Bc.
    + split; [right; exists c; auto|]. split; [subst l; unfold W; rewrite filter_app; cbn [filter]; rewrite Bc; cbn; now rewrite app_nil_r|].
      intro N. destruct r as [|d r]; [cbn in N; congruence|]. exists (rev r), d. cbn [rev]. split; [reflexivity|].
      subst l. cbn [rev] in A. rewrite <- app_assoc in A. apply alt_app_r in A. cbn in A. destruct A as [A _]. rewrite Bc in A. now destruct (blank d).
    + split; [now left|]. split; [reflexivity|]. intros _. exists (rev r), c. auto.
Qed.
Lemma concat_length_pos (c : text) l : good c -> 0 < length (concat (c :: l)).
Proof. intros [N _]. cbn [concat]. rewrite app_length. destruct c; [congruence|cbn; lia]. Qed.

(** A stored line: not longer than the width, starting and ending with a solid character, and made of characters of the chunks. *)
Definition edge_solid (l : text) : Prop := (exists c t, l = c :: t /\ is_blank c = false) /\ (exists t c, l = t ++ [c] /\ is_blank c = false).
Lemma concat_edge l c r : Forall good l -> l = c :: r -> blank c = false -> (exists l' w, l = l' ++ [w] /\ blank w = false) -> edge_solid (concat l).
Proof.
  intros G E B (l' & w & E' & Bw). split.
  - subst l. assert (Gc := Forall_inv G). destruct Gc as [Nc [Bc|Sc]]; [congruence|]. destruct c as [|x c]; [congruence|]. exists x, (c ++ concat r). split; [reflexivity|].
    cbn in Sc. apply andb_true_iff in Sc. destruct Sc as [Sc _]. now apply negb_true_iff.
  - rewrite E' in *. apply Forall_app in G. destruct G as [_ G]. assert (Gw := Forall_inv G). destruct Gw as [Nw [Bc|Sw]]; [congruence|].
    destruct (exists_last Nw) as (w0 & x & ->). exists (concat l' ++ w0), x. rewrite concat_app. cbn [concat]. rewrite app_nil_r, app_assoc. split; [reflexivity|].
    unfold solid in Sw. rewrite forallb_app in Sw. apply andb_true_iff in Sw. destruct Sw as [_ Sw]. cbn in Sw. rewrite andb_true_r in Sw. now apply negb_true_iff.
Qed.
Lemma wrap_chunks_spec width fuel : 1 <= width -> forall started chunks, Forall good chunks -> alt chunks -> Forall (fun c : text => length c <= width) chunks ->
  length (concat chunks) <= fuel -> (started = false -> forall c r, chunks = c :: r -> blank c = false) ->
  let ls := wrap_chunks fuel width started chunks in
  concat (map words ls) = W chunks /\
  Forall (fun l => length l <= width /\ edge_solid l /\ (forall c, In c l -> In c (concat chunks))) ls.
Proof.
  intro Hw. induction fuel as [|fuel IH]; intros started chunks G A F L Hs; cbv zeta.
  - destruct chunks as [|c r]; [cbn; auto|]. pose proof (concat_length_pos c r (Forall_inv G)). lia.
  - destruct chunks as [|c r]; [cbn; auto|]. cbn [wrap_chunks].
    set (ch := if blank c && started then r else c :: r).
    assert (Hch : Forall good ch /\ alt ch /\ Forall (fun c : text => length c <= width) ch /\ W ch = W (c :: r) /\ (forall x, In x (concat ch) -> In x (concat (c :: r))) /\
      (forall d l, ch = d :: l -> blank d = false) /\ (ch = c :: r \/ ch = r)).
    { unfold ch. destruct (blank c && started) eqn:Q.
      - apply andb_true_iff in Q. destruct Q as [Bc St]. split; [exact (Forall_inv_tail G)|]. split; [exact (alt_tail _ _ A)|]. split; [exact (Forall_inv_tail F)|]. split; [|split; [|split; [|now right]]].
        + unfold W. cbn [filter]. now rewrite Bc.
        + intros x Hx. cbn [concat]. apply in_or_app. now right.
        + intros d l ->. destruct A as [A _]. rewrite Bc in A. now destruct (blank d).
      - split; [exact G|]. split; [exact A|]. split; [exact F|]. split; [reflexivity|]. split; [auto|]. split; [|now left].
        intros d l E. injection E as <- <-. apply andb_false_iff in Q. destruct Q as [Q|Q]; [exact Q|]. now apply (Hs Q c r). }
    destruct Hch as (G' & A' & F' & Wc & Inc & Hd & Cases). clearbody ch.
    destruct (take_fit width 0 ch) as [line rest] eqn:Et. destruct (take_fit_spec width ch 0 line rest (Nat.le_0_l _) Et) as (Ech & Len & Ne).
    assert (Nolong : (match rest with
        | w :: rest' => if width <? length w then let '(part, leftover) := handle_long_word width (length (concat line)) w in (line ++ [part], leftover :: rest') else (line, rest)
        | [] => (line, rest) end) = (line, rest)).
    { destruct rest as [|w rest']; [reflexivity|]. rewrite Ech, Forall_app in F'. destruct F' as [_ F']. assert (Lw := Forall_inv F'). cbv beta in Lw.
      destruct (Nat.ltb_spec width (length w)); [lia|reflexivity]. }
    rewrite Nolong. clear Nolong.
    assert (Gl : Forall good line /\ Forall good rest) by (rewrite Ech in G'; now apply Forall_app). destruct Gl as [Gl Gr].
    assert (Al : alt line) by (rewrite Ech in A'; now apply alt_app_l in A').
    assert (Ar : alt rest) by (rewrite Ech in A'; now apply alt_app_r in A').
    assert (Fr : Forall (fun c : text => length c <= width) rest) by (rewrite Ech in F'; apply Forall_app in F'; apply F').
    destruct (drop_last_blank_spec line Al Gl) as (Cut & Wd & Last).
    (* progress *)
    assert (Prog : length (concat rest) <= fuel).
    { assert (L0 : length (concat ch) <= S fuel) by (destruct Cases as [-> | ->]; [exact L|cbn [concat] in L; rewrite app_length in L; lia]).
      destruct line as [|l0 line0].
      - cbn in Ech. subst rest. destruct ch as [|d l]; [cbn; lia|]. exfalso. apply (Ne d l eq_refl); [|reflexivity]. apply (Forall_inv F').
      - rewrite Ech, concat_app, app_length in L0. pose proof (concat_length_pos l0 line0 (Forall_inv Gl)). lia. }
    assert (Wsum : W (c :: r) = W (drop_last_blank line) ++ W rest) by (rewrite <- Wc, Ech, Wd; unfold W; now rewrite filter_app).
    assert (Inr : forall x, In x (concat rest) -> In x (concat (c :: r))) by (intros x Hx; apply Inc; rewrite Ech, concat_app; apply in_or_app; now right).
    destruct (drop_last_blank line) as [|l0 line0] eqn:Ed.
    + (* nothing stored: the line was a single blank chunk, impossible here, or there is nothing left *)
      assert (rest = [] \/ line <> []) as Rr.
      { destruct line as [|x l]; [|right; discriminate]. left. cbn in Ech. subst rest. destruct ch as [|d l]; [reflexivity|]. exfalso. apply (Ne d l eq_refl); [apply (Forall_inv F')|reflexivity]. }
      assert (line = [] -> rest = []) by (intros ->; destruct Rr; congruence).
      destruct line as [|x l].
      * rewrite H by reflexivity. rewrite Wsum. rewrite H by reflexivity. destruct fuel; cbn; auto.
      * exfalso. destruct Cut as [Cut|(b & Cut & Bb)]; [discriminate|]. cbn in Cut. assert (Hx : blank x = false) by (apply (Hd x (l ++ rest)); rewrite Ech; reflexivity).
        injection Cut as -> ->. congruence.
    + destruct (IH true rest Gr Ar Fr Prog ltac:(discriminate)) as [I1 I2].
      assert (Gd : Forall good (l0 :: line0)). { destruct Cut as [Cut|(b & Cut & _)]; [rewrite Cut; exact Gl|]. rewrite Cut in Gl. apply Forall_app in Gl. apply Gl. }
      assert (Ad : alt (l0 :: line0)). { destruct Cut as [Cut|(b & Cut & _)]; [rewrite Cut; exact Al|]. rewrite Cut in Al. now apply alt_app_l in Al. }
      assert (Lend : exists l', line = (l0 :: line0) ++ l'). { destruct Cut as [Cut|(b & Cut & _)]; [exists []; rewrite app_nil_r; congruence|exists [b]; exact Cut]. }
      destruct Lend as [l' Lend]. split.
      * rewrite map_cons, concat_cons, words_concat by assumption. rewrite I1. symmetry. exact Wsum.
      * constructor.
        -- split; [|split].
           ++ rewrite Lend, concat_app, app_length in Len. lia.
           ++ apply (concat_edge (l0 :: line0) l0 line0 Gd eq_refl).
              ** apply (Hd l0 (line0 ++ l' ++ rest)). rewrite Ech, Lend. cbn [app]. now rewrite <- app_assoc.
              ** apply Last. discriminate.
           ++ intros x Hx. apply Inc. rewrite Ech, Lend, !concat_app. apply in_or_app. left. apply in_or_app. now left.
        -- eapply Forall_impl; [|exact I2]. cbv beta. intros l (B1 & B2 & B3). split; [exact B1|]. split; [exact B2|]. intros x Hx. apply Inr, B3, Hx.
Qed.

(** ** The wrapped text *)
Definition card_text (indent : nat) (first : text) (rest : list text) : text :=
  first ++ concat (map (fun l => newline :: repeat space indent ++ l) rest).

Lemma edge_solid_not_blank l : edge_solid l -> blank l = false.
Proof. intros [(c & t & -> & H) _]. rewrite blank_spec. cbn. now rewrite H. Qed.
Lemma lstrip_solid c t : is_blank c = false -> lstrip (c :: t) = c :: t.
Proof. intro H. cbn. now rewrite space_blank, H. Qed.
Lemma lstrip_blank p t : forallb is_blank p = true -> lstrip (p ++ t) = lstrip t.
Proof. induction p as [|c p IH]; [reflexivity|]. cbn. intro H. apply andb_true_iff in H. destruct H as [H1 H2]. rewrite space_blank, H1. auto. Qed.
Lemma repeat_blank n : forallb is_blank (repeat space n) = true.
Proof. induction n; [reflexivity|]. cbn [repeat forallb]. now rewrite IHn. Qed.
Lemma join_indent p x ls : Forall (fun l => blank l = false) ls ->
  join [newline] (indent_lines p (x :: ls)) = (if blank x then x else p ++ x) ++ concat (map (fun l => newline :: p ++ l) ls).
Proof.
  revert x; induction ls as [|y ls IH]; intros x H; [cbn; now rewrite app_nil_r|].
  specialize (IH y (Forall_inv_tail H)). pose proof (Forall_inv H) as Hy. cbv beta in Hy. rewrite Hy in IH.
  change (indent_lines p (x :: y :: ls)) with ((if blank x then x else p ++ x) :: indent_lines p (y :: ls)).
  change (join [newline] ((if blank x then x else p ++ x) :: indent_lines p (y :: ls))) with ((if blank x then x else p ++ x) ++ [newline] ++ join [newline] (indent_lines p (y :: ls))).
  rewrite IH. reflexivity.
Qed.
Lemma edge_end l : edge_solid l -> forall a, exists t c, a ++ l = t ++ [c] /\ is_blank c = false.
Proof. intros [_ (t & c & -> & H)] a. exists (a ++ t), c. now rewrite app_assoc. Qed.
Lemma strip_edges p l : forallb is_blank p = true -> (exists c t, l = c :: t /\ is_blank c = false) -> (exists t c, l = t ++ [c] /\ is_blank c = false) -> strip (p ++ l) = l.
Proof.
  intros Hp (c & t & -> & Hc) (t' & d & E & Hd). unfold strip. rewrite lstrip_blank by exact Hp. rewrite lstrip_solid by exact Hc.
  rewrite E, rev_app_distr. cbn [rev app]. rewrite lstrip_solid by exact Hd. cbn [rev]. now rewrite rev_involutive.
Qed.

Lemma concat_spaced (ws : list text) : concat (spaced ws) = join [space] ws.
Proof.
  induction ws as [|w ws IH]; [reflexivity|]. destruct ws as [|v ws]; [cbn; now rewrite app_nil_r|]. rewrite spaced_cons, !concat_cons.
  change (join [space] (w :: v :: ws)) with (w ++ [space] ++ join [space] (v :: ws)). f_equal. f_equal. exact IH.
Qed.
Lemma expandtabs_none t : (forall c, In c t -> c <> "009"%char) -> forall col, expandtabs col t = t.
Proof.
  induction t as [|c t IH]; intros H col; [reflexivity|]. cbn [expandtabs]. destruct (Ascii.eqb_spec c "009") as [E|_]; [exfalso; apply (H c); [now left|exact E]|].
  f_equal. apply IH. intros; apply H; now right.
Qed.
Lemma text_wrap_spec ws indent width n : ws <> [] -> Forall plain_word ws -> Forall no_hyphen_break ws -> Forall (fun w : text => length w <= width) ws -> 6 <= indent ->
  exists first rest, text_wrap (join [space] ws) indent width n = Ok (card_text indent first rest ++ repeat newline n) /\
    words first ++ concat (map words rest) = ws /\
    Forall (fun l => length l <= width /\ edge_solid l /\ Forall (fun c => c = space \/ plain c) l) (first :: rest).
Proof.
  intros N P NB F I. assert (W1 : 1 <= width).
  { destruct ws as [|w ws]; [congruence|]. pose proof (Forall_inv P) as [Nw _]. pose proof (Forall_inv F) as L. cbv beta in L. destruct w; [congruence|cbn in L; lia]. }
  unfold text_wrap, wrap. destruct (Nat.ltb_spec indent 6); [lia|]. destruct (Nat.eqb_spec width 0); [lia|].
  assert (Chars : forall c, In c (join [space] ws) -> c = space \/ plain c).
  { clear - P. induction P as [|w ws [_ Hw] Hws IH]; [intros c []|]. rewrite Forall_forall in Hw. intros c Hc. destruct ws as [|v ws]; [right; apply Hw, Hc|].
    change (join [space] (w :: v :: ws)) with (w ++ [space] ++ join [space] (v :: ws)) in Hc. apply in_app_or in Hc. destruct Hc as [Hc|Hc]; [right; apply Hw, Hc|].
    apply in_app_or in Hc. destruct Hc as [[<-|[]]|Hc]; [now left|apply IH, Hc]. }
  assert (Mu : munge (join [space] ws) = join [space] ws).
  { unfold munge. rewrite expandtabs_none by (intros c Hc; destruct (Chars c Hc) as [-> |Pc]; [discriminate|intros ->; destruct Pc as [[Pc _] _]; cbv in Pc; lia]).
    rewrite <- (map_id (join [space] ws)) at 2. apply map_ext_in. intros c Hc. destruct (Chars c Hc) as [-> |Pc]; [reflexivity|]. now rewrite space_blank, (plain_not_blank c Pc). }
  rewrite Mu, split_spaced by assumption.
  assert (Cs : concat (spaced ws) = join [space] ws).
  { apply concat_spaced. }
  destruct (spaced_good ws P) as (G & A & Wf & Hh).
  destruct (wrap_chunks_spec width (length (concat (spaced ws))) W1 false (spaced ws) G A (spaced_fit ws width W1 F) (le_n _) (fun _ => Hh)) as [Hw Hl].
  rewrite Wf in Hw. rewrite Cs in *. destruct (wrap_chunks _ width false (spaced ws)) as [|first rest]; [cbn in Hw; congruence|].
  exists first, rest. split; [|split; [exact Hw|]].
  - cbn [bind]. f_equal. f_equal. rewrite join_indent.
    + pose proof (Forall_inv Hl) as (_ & E1 & _). rewrite (edge_solid_not_blank first E1). unfold card_text. rewrite <- app_assoc. apply strip_edges.
      * apply repeat_blank.
      * destruct E1 as [(c & t & -> & Hc) _]. exists c, (t ++ concat (map (fun l => newline :: repeat space indent ++ l) rest)). auto.
      * destruct (rev rest) as [|x r] eqn:Er.
        -- assert (rest = []) as -> by (rewrite <- (rev_involutive rest), Er; reflexivity). cbn. rewrite app_nil_r. apply E1.
        -- assert (Hr : rest = rev r ++ [x]) by (rewrite <- (rev_involutive rest), Er; reflexivity). rewrite Hr, map_app, concat_app. cbn [map concat]. rewrite app_nil_r.
           assert (Ex : edge_solid x). { apply Forall_inv_tail in Hl. rewrite Hr, Forall_app in Hl. destruct Hl as [_ Hl]. apply (Forall_inv Hl). }
           rewrite app_comm_cons, !app_assoc. apply edge_end, Ex.
    + apply Forall_inv_tail in Hl. eapply Forall_impl; [|exact Hl]. cbv beta. intros l (_ & E & _). now apply edge_solid_not_blank.
  - eapply Forall_impl; [|exact Hl]. cbv beta. intros l (L & E & C). split; [exact L|]. split; [exact E|]. apply Forall_forall. intros c Hc. apply Chars, C, Hc.
Qed.

(** ** Reading *)
Definition no_nl (t : text) : Prop := Forall (fun c => is_newline c = false) t.
Lemma no_nl_app a b : no_nl a -> no_nl b -> no_nl (a ++ b).
Proof. intros. now apply Forall_app. Qed.
Lemma no_nl_spaces n : no_nl (repeat space n).
Proof. induction n; constructor; auto. Qed.
Lemma no_nl_chars l : Forall (fun c => c = space \/ plain c) l -> no_nl l.
Proof.
  apply Forall_impl. intros c [-> |P]; [reflexivity|]. destruct (is_newline c) eqn:E; [|reflexivity]. apply newline_blank in E. rewrite (plain_not_blank c P) in E. congruence.
Qed.
Lemma lines_from_line cur l t : no_nl l -> lines_from cur (l ++ newline :: t) = (cur ++ l) :: lines_from [] t.
Proof.
  revert cur; induction l as [|c l IH]; intros cur H; [cbn; now rewrite app_nil_r|]. cbn [app lines_from]. pose proof (Forall_inv H) as Hc. cbv beta in Hc. rewrite Hc, IH by exact (Forall_inv_tail H).
  now rewrite <- app_assoc.
Qed.
Lemma lines_line l t : no_nl l -> lines (l ++ newline :: t) = l :: lines t.
Proof. intro H. unfold lines. now rewrite lines_from_line. Qed.
Lemma lines_from_app cur a b : lines_from cur (a ++ newline :: b) = lines_from cur (a ++ [newline]) ++ lines b.
Proof. revert cur; induction a as [|c a IH]; intro cur; cbn [app lines_from]; [reflexivity|]. destruct (is_newline c); [cbn [app]; f_equal|]; apply IH. Qed.
Lemma before_dollar_plain l : Forall (fun c => c <> "$"%char) l -> before_dollar l = l.
Proof. induction 1 as [|c l H _ IH]; [reflexivity|]. cbn. destruct (Ascii.eqb_spec c "$"); [congruence|]. now rewrite IH. Qed.
Lemma chars_no_dollar l : Forall (fun c => c = space \/ plain c) l -> Forall (fun c => c <> "$"%char) l.
Proof. apply Forall_impl. intros c [-> |[_ P]]; [discriminate|exact P]. Qed.
Lemma continuation_spaces n l : 5 <= n -> continuation (repeat space n ++ l) = true.
Proof.
  intro H. unfold continuation. replace n with (5 + (n - 5)) by lia. rewrite repeat_app. reflexivity.
Qed.
Lemma add_continuation cards c n l : 5 <= n -> Forall (fun c => c = space \/ plain c) l ->
  add_line (cards ++ [c]) (repeat space n ++ l) = cards ++ [c ++ words l].
Proof.
  intros Hn Hl. unfold add_line. rewrite continuation_spaces by exact Hn.
  assert (comment_line (repeat space n ++ l) = false) as -> by (destruct n; [lia|reflexivity]).
  rewrite before_dollar_plain.
  - rewrite rev_app_distr. cbn [rev app]. rewrite words_blank_prefix by apply repeat_blank. cbn [rev]. now rewrite rev_involutive.
  - apply Forall_app. split; [|now apply chars_no_dollar]. clear. induction n; constructor; [discriminate|exact IHn].
Qed.
Lemma add_first cards l : edge_solid l -> comment_line l = false -> Forall (fun c => c = space \/ plain c) l -> add_line cards l = cards ++ [words l].
Proof.
  intros E C Hl. unfold add_line. rewrite C. rewrite before_dollar_plain by (now apply chars_no_dollar).
  assert (continuation l = false) as ->; [|reflexivity]. destruct E as [(c & t & -> & Hc) _]. unfold continuation. apply andb_false_iff. right. cbn [firstn forallb].
  destruct (Ascii.eqb_spec " " c); [subst c; discriminate|reflexivity].
Qed.
Lemma comment_words l w ws : edge_solid l -> words l = w :: ws -> w <> ["C"%char] -> w <> ["c"%char] -> comment_line l = false.
Proof.
  intros [(c & t & -> & Hc) _] Hw N1 N2. cbn [comment_line]. destruct (Ascii.eqb_spec c "C") as [-> |NC]; [|destruct (Ascii.eqb_spec c "c") as [-> |Nc]; [|reflexivity]]; cbn [orb].
  all: destruct t as [|d t]; [cbn in Hw; injection Hw as <- _; congruence|]; destruct (is_blank d) eqn:Ed; [|reflexivity]; exfalso.
  all: unfold words in Hw; cbn [words_from] in Hw; rewrite Hc in Hw; cbn [app words_from] in Hw; rewrite Ed in Hw; cbn [nonempty app] in Hw; injection Hw as <- _; congruence.
Qed.
Lemma fold_rest n rest t : 5 <= n -> forall cards c, Forall (fun l : text => Forall (fun c => c = space \/ plain c) l) rest ->
  fold_left add_line (lines (concat (map (fun l => repeat space n ++ l ++ [newline]) rest) ++ t)) (cards ++ [c]) =
  fold_left add_line (lines t) (cards ++ [c ++ concat (map words rest)]).
Proof.
  intro Hn. induction rest as [|l rest IH]; intros cards c H; [cbn; now rewrite app_nil_r|].
  pose proof (Forall_inv H) as Hl. cbv beta in Hl. cbn [map concat]. rewrite <- !app_assoc. cbn [app].
  rewrite (app_assoc (repeat space n) l), lines_line by (apply no_nl_app; [apply no_nl_spaces|now apply no_nl_chars]).
  cbn [fold_left]. rewrite add_continuation by assumption. rewrite IH by exact (Forall_inv_tail H). now rewrite <- app_assoc.
Qed.
Lemma card_text_shift n first rest t : card_text n first rest ++ newline :: t = first ++ newline :: concat (map (fun l => repeat space n ++ l ++ [newline]) rest) ++ t.
Proof.
  unfold card_text. revert first; induction rest as [|l rest IH]; intro first; [cbn; now rewrite app_nil_r|].
  cbn [map concat]. rewrite <- !app_assoc. f_equal. cbn [app]. f_equal. rewrite <- !app_assoc.
  specialize (IH (repeat space n ++ l)). rewrite <- !app_assoc in IH. rewrite IH. reflexivity.
Qed.
(** Reading a wrapped card adds exactly its words. *)
Lemma read_card n first rest t cards ws : 5 <= n -> words first ++ concat (map words rest) = ws -> edge_solid first -> comment_line first = false ->
  Forall (fun l : text => Forall (fun c => c = space \/ plain c) l) (first :: rest) ->
  fold_left add_line (lines (card_text n first rest ++ newline :: t)) cards = fold_left add_line (lines t) (cards ++ [ws]).
Proof.
  intros Hn <- E C F. rewrite card_text_shift, lines_line by (apply no_nl_chars, (Forall_inv F)). cbn [fold_left]. rewrite add_first by (assumption || exact (Forall_inv F)).
  apply fold_rest; [exact Hn|exact (Forall_inv_tail F)].
Qed.
(** The form used for whole files: a wrapped card, followed by any text, reads as its words followed by the cards of that text. *)
Lemma wrap_reads ws indent width : ws <> [] -> Forall plain_word ws -> Forall no_hyphen_break ws -> Forall (fun w : text => length w <= width) ws -> 6 <= indent ->
  (forall w r, ws = w :: r -> w <> ["C"%char] /\ w <> ["c"%char]) ->
  exists t, text_wrap (join [space] ws) indent width 1 = Ok t /\
    (forall more cards, fold_left add_line (lines (t ++ more)) cards = fold_left add_line (lines more) (cards ++ [ws])) /\
    (forall l r, lines t = l :: r -> length l <= width /\ Forall (fun l' => length l' <= indent + width) r) /\ lines t <> [].
Proof.
  intros N P NB F I Hc. destruct (text_wrap_spec ws indent width 1 N P NB F I) as (first & rest & E & Hw & Hl).
  eexists. split; [exact E|]. pose proof (Forall_inv Hl) as (L1 & E1 & C1).
  assert (Cm : comment_line first = false).
  { assert (exists w r, words first = w :: r) as (w & r & Ew).
    { destruct E1 as [(c & t & -> & Hb) _]. unfold words. cbn [words_from]. rewrite Hb. cbn [app].
      assert (G : forall t cur, cur <> [] -> words_from cur t <> []).
      { clear. induction t as [|x t IH]; intros cur Hcur; cbn; [destruct cur; [congruence|discriminate]|]. destruct (is_blank x); [destruct cur; [congruence|discriminate]|]. apply IH. destruct cur; discriminate. }
      destruct (words_from [c] t) eqn:Q; [exfalso; now apply (G t [c]) in Q|eauto]. }
    rewrite Ew in Hw. cbn [app] in Hw. destruct (Hc w _ (eq_sym Hw)). now apply (comment_words first w r). }
  assert (Cf : Forall (fun l : text => Forall (fun c => c = space \/ plain c) l) (first :: rest)) by (eapply Forall_impl; [|exact Hl]; cbv beta; intros l (_ & _ & H); exact H).
  split; [|].
  - intros more cards. cbn [repeat]. rewrite <- app_assoc. cbn [app]. apply read_card; auto; lia.
  - cbn [repeat]. rewrite card_text_shift, lines_line by (apply no_nl_chars, C1). split; [|discriminate]. intros l r El. injection El as <- <-. split; [exact L1|].
    rewrite app_nil_r. assert (Lr : lines (concat (map (fun l => repeat space indent ++ l ++ [newline]) rest)) = map (fun l => repeat space indent ++ l) rest).
    { pose proof (Forall_inv_tail Cf) as Q. clear - Q. induction Q as [|l rest Hl _ IH]; [reflexivity|]. cbn [map concat]. rewrite <- !app_assoc. cbn [app].
      rewrite (app_assoc (repeat space indent) l), lines_line by (apply no_nl_app; [apply no_nl_spaces|now apply no_nl_chars]). now rewrite IH. }
    rewrite Lr. apply Forall_map. apply Forall_inv_tail in Hl. eapply Forall_impl; [|exact Hl]. cbv beta. intros l (L & _). rewrite app_length, repeat_length. lia.
Qed.
