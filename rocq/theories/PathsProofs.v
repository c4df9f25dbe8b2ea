(** Lemmas for C81 and C82. *)
From Coq Require Import Ascii String List Bool Arith Lia.
From Verif Require Import Base Reactions TextWrap XsData Reactivity Paths SpecPaths.
Local Open Scope nat_scope.

Lemma text_eqb_spec a b : text_eqb a b = true <-> a = b.
Proof. unfold text_eqb. destruct (list_eq_dec ascii_dec a b); split; congruence. Qed.
Lemma text_eqb_refl a : text_eqb a a = true.
Proof. now apply text_eqb_spec. Qed.
Lemma text_eqb_neq a b : a <> b -> text_eqb a b = false.
Proof. intro. destruct (text_eqb a b) eqn:E; [apply text_eqb_spec in E; contradiction|reflexivity]. Qed.

Lemma split_at_app s cur a b : split_at s cur (a ++ s :: b) = split_at s cur a ++ split_at s [] b.
Proof.
  revert cur. induction a as [|c a IH]; intro cur; cbn [app split_at].
  - now rewrite Ascii.eqb_refl.
  - destruct (Ascii.eqb c s); cbn [app]; now rewrite IH.
Qed.
Lemma split_at_whole s cur a : ~ In s a -> split_at s cur a = [cur ++ a].
Proof.
  revert cur. induction a as [|c a IH]; intros cur H; cbn [split_at]; [now rewrite app_nil_r|].
  destruct (Ascii.eqb_spec c s) as [->|]; [destruct H; now left|]. rewrite IH by (intro; apply H; now right). now rewrite <- app_assoc.
Qed.
Definition keep (p : text) : bool := negb (text_eqb p []) && negb (text_eqb p (txt ".")).
Lemma pieces_app a b : pieces (a ++ slash :: b) = pieces a ++ pieces b.
Proof. unfold pieces. now rewrite split_at_app, filter_app. Qed.
Lemma pieces_nil : pieces [] = [].
Proof. reflexivity. Qed.
Lemma pieces_slash t : pieces (slash :: t) = pieces t.
Proof. exact (pieces_app [] t). Qed.
Lemma pieces_whole a : ~ In slash a -> pieces a = if keep a then [a] else [].
Proof. intro H. unfold pieces. rewrite split_at_whole by exact H. reflexivity. Qed.
Lemma pieces_head a t : ends t -> pieces (a ++ t) = pieces a ++ pieces t.
Proof. intros [->|(u & ->)]; [now rewrite !app_nil_r|]. change sep with slash. now rewrite pieces_app, pieces_slash. Qed.
Lemma spells_pieces t l : spells t l -> pieces t = l.
Proof.
  induction 1 as [|t l H IH|t l E H IH|name t l N1 N2 N3 E H IH].
  - reflexivity.
  - change sep with slash. now rewrite pieces_slash.
  - change ("."%char :: t) with (txt "." ++ t). rewrite pieces_head by exact E. rewrite IH. reflexivity.
  - rewrite pieces_head by exact E. rewrite IH, pieces_whole by exact N3. unfold keep. rewrite !text_eqb_neq by assumption. reflexivity.
Qed.

(** Taking slashes off the end changes neither the names nor the root. *)
Lemma drop_slashes_app r : exists s, r = s ++ drop_slashes r /\ Forall (fun c => c = slash) s.
Proof.
  induction r as [|c r (s & E & F)]; [now exists []|]. cbn [drop_slashes]. unfold is_slash. destruct (Ascii.eqb_spec c slash) as [->|].
  - exists (slash :: s). split; [cbn; now rewrite <- E|now constructor].
  - now exists [].
Qed.
Lemma pieces_slashes a s : Forall (fun c => c = slash) s -> pieces (a ++ s) = pieces a.
Proof.
  intro F. revert a. induction F as [|c s -> F IH]; intro a; [now rewrite app_nil_r|].
  rewrite pieces_app. specialize (IH []). cbn [app] in IH. rewrite IH. change (pieces []) with (@nil text). apply app_nil_r.
Qed.
Lemma drop_to_slash_app a b : ~ In slash a -> drop_to_slash (a ++ slash :: b) = slash :: b.
Proof.
  induction a as [|c a IH]; intro H; cbn [app drop_to_slash].
  - reflexivity.
  - unfold is_slash at 1. destruct (Ascii.eqb_spec c slash) as [->|]; [destruct H; now left|]. apply IH. intro. apply H. now right.
Qed.
(** The folder above r/name: r, without slashes at its end, or only slashes. *)
Lemma path_head_spec r name : ~ In slash name ->
  exists s, Forall (fun c => c = slash) s /\ r ++ [slash] = path_head (r ++ slash :: name) ++ s /\
    (Forall (fun c => c = slash) (r ++ [slash]) -> s = []) /\ (path_head (r ++ slash :: name) <> []).
Proof.
  intro N. unfold path_head. rewrite rev_app_distr. cbn [rev]. rewrite <- app_assoc. cbn [app].
  rewrite drop_to_slash_app by (now rewrite <- in_rev). cbn [rev]. rewrite rev_involutive.
  destruct (forallb is_slash (r ++ [slash])) eqn:F.
  - exists []. rewrite app_nil_r. repeat split; auto. now destruct r.
  - destruct (drop_slashes_app (rev (r ++ [slash]))) as (s & E & Fs). exists (rev s).
    assert (Q : r ++ [slash] = rev (drop_slashes (rev (r ++ [slash]))) ++ rev s) by (rewrite <- rev_app_distr, <- E; symmetry; apply rev_involutive).
    split; [now apply Forall_rev|]. split; [exact Q|]. split.
    + intro A. exfalso. assert (forallb is_slash (r ++ [slash]) = true); [|congruence]. apply forallb_forall. intros x Hx. rewrite Forall_forall in A. apply A in Hx. subst x. reflexivity.
    + intro Z. rewrite Z in Q. cbn [app] in Q. assert (forallb is_slash (r ++ [slash]) = true); [|congruence]. rewrite Q. apply forallb_forall. intros x Hx. rewrite <- in_rev in Hx. rewrite Forall_forall in Fs. apply Fs in Hx. subst x. reflexivity.
Qed.

Lemma path_root_absolute t : absolute t -> path_root t = [slash].
Proof.
  intros (u & -> & [H|(v & ->)]); [|reflexivity]. destruct u as [|b [|c u]]; cbn; [reflexivity| |]; unfold is_slash;
  (destruct (Ascii.eqb_spec b slash) as [->|]; [now destruct (H _ eq_refl)|reflexivity]).
Qed.

Lemma starts_with_spec s t : starts_with s t = true <-> exists b, t = s ++ b.
Proof.
  revert t. induction s as [|c s IH]; intro t; cbn [starts_with]; [split; [now exists t|reflexivity]|].
  destruct t as [|d t]; [split; [discriminate|intros (b & E); discriminate E]|]. rewrite andb_true_iff, IH. split.
  - intros [E (b & ->)]. apply Ascii.eqb_eq in E. subst. now exists b.
  - intros (b & E). cbn in E. injection E as -> ->. split; [apply Ascii.eqb_refl|now exists b].
Qed.
Lemma contains_spec s t : contains s t = true <-> occurs s t.
Proof.
  induction t as [|c t IH]; cbn [contains].
  - rewrite orb_false_r, starts_with_spec. split; [intros (b & E); now exists [], b|]. intros (a & b & E). destruct a; [now exists b|discriminate].
  - rewrite orb_true_iff, starts_with_spec, IH. split.
    + intros [(b & E)|(a & b & ->)]; [now exists [], b|now exists (c :: a), b].
    + intros ([|d a] & b & E); [left; now exists b|right; exists a, b; now injection E].
Qed.
(** Slashes at the end do not matter for a text without slashes. *)
Lemma occurs_slashes s t z : ~ In slash s -> s <> [] -> Forall (fun c => c = slash) z -> occurs s (t ++ z) <-> occurs s t.
Proof.
  intros Hs Hn F. split.
  - revert t. induction F as [|c z -> F IH]; intros t O; [now rewrite app_nil_r in O|].
    change (t ++ slash :: z) with (t ++ [slash] ++ z) in O. rewrite app_assoc in O. apply IH in O. destruct O as (a & b & E).
    destruct b as [|c b] using rev_ind.
    + rewrite app_nil_r in E. destruct s as [|d s] using rev_ind; [contradiction|]. rewrite app_assoc in E. apply app_inj_tail in E. destruct E as [_ <-]. destruct Hs. apply in_or_app. right. now left.
    + rewrite !app_assoc in E. apply app_inj_tail in E. destruct E as [-> _]. exists a, b. now rewrite <- app_assoc.
  - intros (a & b & ->). exists a, (b ++ z). now rewrite <- !app_assoc.
Qed.

Lemma Path2_relative p t : relative t -> Path2 p t = (fst p, snd p ++ pieces t).
Proof.
  intro H. destruct t as [|c t]; cbn [Path2]; [rewrite pieces_nil, app_nil_r; now destruct p|]. unfold is_slash. destruct (Ascii.eqb_spec c slash) as [->|]; [now destruct (H t)|reflexivity].
Qed.

(** The root folder of a package folder r/name. *)
Lemma root_names r name l : ~ In slash name -> absolute (r ++ slash :: name) -> spells (r ++ slash :: name) (l ++ [name]) -> name <> [] -> name <> txt "." ->
  Path (path_head (r ++ slash :: name)) = ([slash], l).
Proof.
  intros N A S N1 N2. apply spells_pieces in S. rewrite pieces_app in S. rewrite (pieces_whole name N) in S. unfold keep in S. rewrite !text_eqb_neq in S by assumption. cbn in S. apply app_inj_tail in S. destruct S as [S _].
  destruct (path_head_spec r name N) as (s & F & E & Ha & Hn). unfold Path. f_equal.
  - apply path_root_absolute. destruct A as (u & Eu & [Hu|(v & Hv)]); [destruct r as [|c r]|].
    + cbn in Ha. rewrite Ha in E by (repeat constructor). rewrite app_nil_r in E. cbn [app] in E |- *. rewrite <- E. exists []. split; [reflexivity|left; discriminate].
    + cbn in Eu. injection Eu as -> Er. destruct (path_head ((sep :: r) ++ slash :: name)) as [|c h]; [contradiction|]. cbn in E. injection E as <- E. exists h. split; [reflexivity|]. left. intros v ->. destruct r as [|c r].
      * cbn in E. injection E as E. cbn in Er. subst u. now apply (Hu name).
      * cbn in E. injection E as -> E. apply (Hu (r ++ slash :: name)). rewrite <- Er. reflexivity.
    + subst u. assert (W : exists w, r ++ [slash] = sep :: sep :: sep :: w).
      { destruct r as [|a [|b [|c r]]]; cbn in Eu.
        - injection Eu as Eu. destruct N. rewrite Eu. now left.
        - injection Eu as _ Eu. destruct N. rewrite Eu. now left.
        - injection Eu as -> -> _. now exists [].
        - injection Eu as -> -> -> _. now exists (r ++ [slash]). }
      destruct W as (w & W). assert (Full : forall h, path_head (r ++ slash :: name) = h -> Forall (fun c => c = slash) h -> h = sep :: sep :: sep :: w).
      { intros h Eh Fh. rewrite Eh in *. assert (Z : s = []) by (apply Ha; rewrite E; now apply Forall_app). rewrite Z, app_nil_r in E. now rewrite <- E. }
      destruct (path_head (r ++ slash :: name)) as [|a [|b [|c h]]] eqn:Eh.
      * contradiction.
      * exfalso. rewrite W in E. cbn in E. injection E as <- _. specialize (Full _ eq_refl). discriminate Full. repeat constructor.
      * exfalso. rewrite W in E. cbn in E. injection E as <- <- _. specialize (Full _ eq_refl). discriminate Full. repeat constructor.
      * rewrite W in E. cbn in E. injection E as <- <- <- _. exists (sep :: sep :: h). split; [reflexivity|]. right. now exists h.
  - rewrite <- (pieces_slashes _ s F), <- E, pieces_app. rewrite pieces_nil, app_nil_r. exact S.
Qed.

Lemma root_egg r name : ~ In slash name -> contains (txt "egg") (path_head (r ++ slash :: name)) = true <-> occurs (txt "egg") r.
Proof.
  intro N. rewrite contains_spec. destruct (path_head_spec r name N) as (s & F & E & _).
  assert (H1 : ~ In slash (txt "egg")) by (intros [H|[H|[H|[]]]]; discriminate). assert (H2 : txt "egg" <> []) by discriminate.
  rewrite <- (occurs_slashes _ _ s H1 H2 F), <- E. apply occurs_slashes; [exact H1|exact H2|repeat constructor].
Qed.

(** Names of data files. *)
Lemma split_underscored l : l <> [] -> (forall p, In p l -> ~ In "_"%char p) -> split_at "_" [] (underscored l) = l.
Proof.
  induction l as [|p l IH]; [contradiction|]. intros _ H. destruct l as [|q l].
  - cbn [underscored]. rewrite split_at_whole by (apply H; now left). reflexivity.
  - change (underscored (p :: q :: l)) with (p ++ "_"%char :: underscored (q :: l)). rewrite split_at_app, split_at_whole by (apply H; now left). rewrite IH; [reflexivity|discriminate|]. intros; apply H; now right.
Qed.
Lemma split_extension a e : ~ In "."%char a -> (e = [] \/ exists t, e = "."%char :: t) -> hd [] (split_at "." [] (a ++ e)) = a.
Proof.
  intros H [->|(t & ->)].
  - now rewrite app_nil_r, split_at_whole.
  - now rewrite split_at_app, split_at_whole.
Qed.
