(** C80: SDEF files on the disk, also when the program is stopped while it writes them. *)
From Coq Require Import Ascii String List Bool Arith ZArith Lia.
From Verif Require Import Base Reactions SpecReactions Space Source SpecSource SourceProofs P_Source SpectraData Energy TextWrap SpecText TextProofs Format Mcnp SpecMcnp McnpProofs P_Mcnp Flux Reactivity P_Reactivity P_EndToEndMcnp McnpIO SpecIO IOProofs.

(** An encoding that can write every text, such as UTF-8. *)
Definition any_text (t : text) : bool := true.

Lemma sdef_files d cit s stub : exists fs, fst (sdef_ops any_text d cit s stub) = ops_of fs /\ fst (to_sdef_card d cit s stub) = files_of fs /\
  snd (sdef_ops any_text d cit s stub) = snd (to_sdef_card d cit s stub).
Proof. unfold sdef_ops, to_sdef_card, write_mcnp_sdef_source. apply write_ops_files. now rewrite !map_length. Qed.

Lemma firstn_NoDup {A} (l : list A) k : NoDup l -> NoDup (firstn k l).
Proof. intro N. revert k. induction N as [|x l Hx N IH]; intro k; destruct k; cbn; constructor; [|apply IH]. intro H. apply Hx. rewrite <- (firstn_skipn k l). apply in_or_app. now left. Qed.
Lemma written_names m u s d cit stub : reachable m u s -> NoDup (map fst (fst (to_sdef_card d cit s stub))).
Proof.
  intro H. unfold to_sdef_card.
  destruct (C63_files d cit stub (map (fun c => fst (fst c)) (cells s)) (map (fun c => snd (fst c)) (cells s)) (cell_side s) (temperature s) (strength s)) as [[k ->] _]. apply firstn_NoDup.
  destruct (reachable_consistent m u s H) as (f & N & E1 & _). rewrite E1.
  assert (Q : map (fun channel : reaction * list R => name_of stub (fst channel)) (filter (fun channel => neutronic (fst channel)) (dmap f (source_type s))) = map (name_of stub) (filter neutronic (source_type s))).
  { unfold dmap. clear. induction (source_type s) as [|r l IH]; [reflexivity|]. cbn [map filter fst]. destruct (neutronic r); cbn [map fst]; now rewrite IH. }
  rewrite Q. clear - N. induction N as [|r l Hr N IH]; [constructor|]. cbn [filter]. destruct (neutronic r) eqn:Hn; [|exact IH]. cbn [map]. constructor; [|exact IH].
  intro Hi. apply in_map_iff in Hi. destruct Hi as (x & Ex & Hx). apply filter_In in Hx. destruct Hx as [Hx1 Hx2]. apply extension_distinct in Ex; try assumption. congruence.
Qed.

(** Left to itself (it may succeed or raise an exception) to_sdef_card leaves exactly the files of the model on the disk, closed, and touches nothing else. *)
Theorem C80_finished : forall d cit s stub before,
  snd (sdef_ops any_text d cit s stub) = snd (to_sdef_card d cit s stub) /\
  exists after, run (fst (sdef_ops any_text d cit s stub)) (before, None) = (after, None) /\ same_disk after (with_files before (fst (to_sdef_card d cit s stub))).
Proof.
  intros d cit s stub before. destruct (sdef_files d cit s stub) as (fs & -> & -> & E). split; [exact E|]. apply run_ops. auto.
Qed.
Print Assumptions C80_finished.

Lemma files_of_app a b : files_of (a ++ b) = files_of a ++ files_of b.
Proof. apply map_app. Qed.
Lemma NoDup_parts {A} (a b : list A) : NoDup (a ++ b) -> NoDup a /\ (forall x, In x b -> ~ In x a).
Proof.
  induction a as [|x a IH]; intro N; [split; [constructor|intros ? _ []]|]. cbn in N. inversion N as [|? ? N1 N2]; subst. destruct (IH N2) as [I1 I2]. split.
  - constructor; [|exact I1]. intro. apply N1, in_or_app. auto.
  - intros y Hy [->|Ha]; [apply N1, in_or_app; auto|exact (I2 y Hy Ha)].
Qed.

(** Stopped at any point (killed, crashed, disk full): the files of the first channels are complete, at most one file is a first part of
    what it should be, the files of the later channels and all other files are as before. *)
Theorem C80_interrupted : forall m u s d cit stub before after, reachable m u s -> interrupted (fst (sdef_ops any_text d cit s stub)) before after ->
  exists complete rest, fst (to_sdef_card d cit s stub) = complete ++ rest /\
    (forall n t, In (n, t) complete -> after n = Some t) /\
    match rest with
    | [] => True
    | (n, t) :: later => (after n = before n \/ exists part more, t = part ++ more /\ after n = Some part) /\ forall n' t', In (n', t') later -> after n' = before n'
    end /\
    (forall n, ~ In n (map fst (fst (to_sdef_card d cit s stub))) -> after n = before n).
Proof.
  intros m u s d cit stub before after H I. pose proof (written_names m u s d cit stub H) as N. destruct (sdef_files d cit s stub) as (fs & E1 & E2 & _). rewrite E1 in I. rewrite E2 in *.
  destruct (interrupted_ops fs before after I) as (fs1 & fs2 & -> & C). rewrite files_of_app in *. rewrite map_app in N. destruct (NoDup_parts _ _ N) as [N1 Dj].
  exists (files_of fs1), (files_of fs2). split; [reflexivity|]. destruct C as [C|(n & ps & later & t & v & -> & Et & C)].
  - split; [intros n t Hn; rewrite C; now apply with_files_in|]. split.
    + destruct (files_of fs2) as [|[n t] later] eqn:Ef; [exact Logic.I|]. split; [left; rewrite C; apply with_files_other; apply Dj; now left|]. intros n' t' H'. rewrite C. apply with_files_other, Dj. right. apply (in_map fst) in H'. exact H'.
    + intros n Hn. rewrite C. apply with_files_other. rewrite map_app in Hn. intro. apply Hn. apply in_or_app. auto.
  - change (files_of ((n, ps) :: later)) with ((n, concat ps) :: files_of later) in *. cbn [map fst] in *. split; [|split; [split|]].
    + intros n' t' Hn. rewrite C, put_other; [now apply with_files_in|]. intros ->. apply (in_map fst) in Hn. exact (Dj n (or_introl eq_refl) Hn).
    + right. exists t, v. split; [exact Et|]. rewrite C. apply put_same.
    + intros n' t' Hn. apply (in_map fst) in Hn. cbn [fst] in Hn. rewrite C, put_other; [apply with_files_other, Dj; now right|].
      intros ->. apply NoDup_remove_2 in N. apply N. apply in_or_app. now right.
    + intros n' Hn. rewrite map_app in Hn. cbn [map fst] in Hn. rewrite C, put_other; [apply with_files_other; intro; apply Hn, in_or_app; auto|]. intros ->. apply Hn, in_or_app. right. now left.
Qed.
Print Assumptions C80_interrupted.

(** Running it again repairs: the disk is as if the first run had not been stopped. *)
Theorem C80_recovery : forall m u s d cit stub before after, reachable m u s -> interrupted (fst (sdef_ops any_text d cit s stub)) before after ->
  same_disk (fst (run (fst (sdef_ops any_text d cit s stub)) (after, None))) (fst (run (fst (sdef_ops any_text d cit s stub)) (before, None))).
Proof.
  intros m u s d cit stub before after H I. destruct (C80_interrupted m u s d cit stub before after H I) as (complete & rest & E & _ & _ & O).
  destruct (C80_finished d cit s stub before) as (_ & a1 & -> & S1). destruct (C80_finished d cit s stub after) as (_ & a2 & -> & S2). intro x. cbn [fst]. rewrite S1, S2.
  apply with_files_over. exact O.
Qed.
Print Assumptions C80_recovery.

(** The label of every reaction has an arrow (in UTF-8: E2 86 92). *)
Definition has_arrow (t : text) : Prop := exists a b, t = a ++ [ascii_of_nat 226; ascii_of_nat 134; ascii_of_nat 146] ++ b.
Lemma has_arrow_l t u : has_arrow t -> has_arrow (t ++ u).
Proof. intros (a & b & ->). exists a, (b ++ u). now rewrite <- !app_assoc. Qed.
Lemma has_arrow_r t u : has_arrow u -> has_arrow (t ++ u).
Proof. intros (a & b & ->). exists (t ++ a), b. now rewrite <- !app_assoc. Qed.
Lemma header_arrow d cit r v temps header w : is_neutronic r = true -> sdef_header d cit r v temps = Ok (header, w) -> has_arrow header.
Proof.
  intros Hn E. unfold sdef_header in E. destruct (mean_ion_temp v temps) as [T|e|]; try discriminate. cbn [bind] in E. destruct (energy_cards d r T) as [[cards w']|e|]; try discriminate. cbn [bind] in E.
  assert (L : has_arrow (line (txt "C Reaction channel: " ++ txt (label r)))).
  { unfold line. apply has_arrow_l, has_arrow_r. destruct r; try discriminate Hn.
    - exists (txt "D + T "), (txt " ⁴He + n"). reflexivity.
    - exists (txt "D + D "), (txt " ³He + n"). reflexivity.
    - exists (txt "T + T "), (txt " ⁴He + 2n"). reflexivity. }
  match type of E with Ok (?t, _) = _ => assert (Q : t = header) by congruence end. rewrite <- Q. clear E Q. do 18 apply has_arrow_r. apply has_arrow_l. exact L.
Qed.

(** Where open() uses an encoding without arrows (such as cp1252 or ASCII), to_sdef_card raises UnicodeEncodeError and leaves the first channel's file empty. *)
Theorem C80_encoding_refuted : forall encodes d cit s stub w, (forall t, has_arrow t -> encodes t = false) ->
  snd (to_sdef_card d cit s stub) = Ok w -> fst (to_sdef_card d cit s stub) <> [] ->
  snd (sdef_ops encodes d cit s stub) = Err EValue /\
  exists n t rest, fst (to_sdef_card d cit s stub) = (n, t) :: rest /\ t <> [] /\
    forall before, exists after, run (fst (sdef_ops encodes d cit s stub)) (before, None) = (after, None) /\ same_disk after (put before n []).
Proof.
  intros encodes d cit s stub w Henc. unfold sdef_ops, to_sdef_card, write_mcnp_sdef_source.
  generalize (map m_to_cm (map (fun c => fst (fst c)) (cells s))) as r, (map m_to_cm (map (fun c => snd (fst c)) (cells s))) as z, (m_to_cm (cell_side s)) as h, (temperature s) as temps.
  intros r z h temps. revert w. generalize (strength s) as st. induction st as [|[reac v] st IH]; intros w E N; [destruct N; reflexivity|]. cbn [write_ops write_files] in *.
  destruct (is_neutronic reac) eqn:Hn; [|exact (IH w E N)]. unfold channel_ops, file_content in *. rewrite file_name_ok in * by exact Hn. cbn [bind] in *.
  destruct (sdef_header d cit reac v temps) as [[header w']|e|] eqn:Eh; cbn [bind] in *; try discriminate.
  destruct (r_bounds r (h / 2) h) as [bounds|e|]; cbn [bind] in *; try discriminate.
  destruct (si3_card bounds) as [si|e|]; cbn [bind] in *; try discriminate.
  destruct (sp3_card v (z_ints r)) as [sp|e|]; cbn [bind] in *; try discriminate.
  destruct (ds4_card (length bounds)) as [ds|e|]; cbn [bind] in *; try discriminate.
  destruct (vertical_dist_cards z (h / 2) v 0 (ranges (z_ints r))) as [cs|e|]; cbn [bind] in *; try discriminate.
  pose proof (header_arrow _ _ _ _ _ _ _ Hn Eh) as A. unfold write. rewrite Henc by now apply has_arrow_l. cbn [bind].
  split; [reflexivity|]. destruct (write_files d cit stub r z h temps st) as [files out]. cbn [fst snd] in *. do 3 eexists. split; [reflexivity|]. split.
  - destruct A as (a & b & ->). rewrite <- !app_assoc. destruct a; discriminate.
  - intros b0. eexists. split; [reflexivity|]. intro x. apply put_put.
Qed.
Print Assumptions C80_encoding_refuted.

(** A source written over an old file, stopped after ten characters. *)
Example C80_example : exists s w files t n after,
  reachable nominal_masses nominal_units s /\ to_sdef_card tt_shipped ex_citation s (txt "demo") = (files, Ok w) /\ files = [(n, t)] /\ t <> [] /\
  interrupted (fst (sdef_ops any_text tt_shipped ex_citation s (txt "demo"))) (fun _ => Some (txt "old")) after /\ after n = Some (firstn 10 t) /\ after (txt "notes") = Some (txt "old").
Proof.
  destruct C74_mcnp_example as (plasma & h & tr & s & ws & files & w & [n t] & x & _ & Mk & E & Ef & En & Er & _). cbn [fst snd] in *.
  assert (Nt : t <> []) by (intros ->; discriminate Er).
  exists s, w, files, t, n, (put (put (fun _ => Some (txt "old")) n []) n (firstn 10 t)).
  split; [eexists _, _, _, _, _, _, _, _, _, _, []; split; [exact Mk|reflexivity]|]. split; [exact E|]. split; [exact Ef|]. split; [exact Nt|].
  destruct (sdef_files tt_shipped ex_citation s (txt "demo")) as (fs & Eo & Efs & _). rewrite E in Efs. cbn [fst] in Efs. rewrite Ef in Efs. destruct fs as [|[n' ps] [|f fs]]; try discriminate. cbn in Efs. injection Efs as <- Et.
  split; [|split; [apply put_same|rewrite !put_other by (rewrite En; discriminate); reflexivity]].
  rewrite Eo. exists (FOpen n :: map FWrite ps), [FClose]. split; [unfold ops_of, file_ops; cbn; now rewrite app_nil_r|].
  change (FOpen n :: map FWrite ps) with ([FOpen n] ++ map FWrite ps). rewrite run_app. change (run [FOpen n] (fun _ => Some (txt "old"), None)) with (put (fun _ => Some (txt "old")) n [], Some (n, @nil ascii)). rewrite run_writes. cbn [app].
  apply (crashed_open _ n (concat ps) (firstn 10 t) (skipn 10 t)). now rewrite <- Et, firstn_skipn.
Qed.
