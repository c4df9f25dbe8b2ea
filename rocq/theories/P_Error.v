(** C75, C76: what error messages look like when printed. *)
From Coq Require Import Ascii String List Bool Arith Lia.
From Verif Require Import Base TextWrap SpecText TextProofs Error SpecError ErrorProofs.
Local Open Scope nat_scope.

Lemma tns_lines message : exists s ls, tns_str [message] = Ok s /\ lines s = ls /\ ink s = ink message /\
  Forall (fun l : text => l <> [] /\ length l <= 70) ls /\ (Forall short_word (words message) -> words s = words message).
Proof.
  unfold tns_str, fill. destruct (wrap_any (dedent message) 70 ltac:(lia)) as (ls & E & Ik & F & Hw). rewrite E. cbn [bind]. exists (join [newline] ls), ls.
  split; [reflexivity|]. split; [|split; [|split]].
  - apply lines_join. eapply Forall_impl; [|exact F]. cbv beta. intros l (A & _ & C). split; [now apply no_nl_line|exact A].
  - rewrite ink_join_lines, Ik, !ink_words. now rewrite words_dedent.
  - eapply Forall_impl; [|exact F]. cbv beta. tauto.
  - intro H. rewrite words_join_lines, Hw by (rewrite words_dedent; exact H). apply words_dedent.
Qed.

(** C75: printing an exception of this library always succeeds if it was given a message; lines are at most 70 characters long, and no
    character of the message other than white space is lost, added or moved. *)
Theorem C75_message_printed : forall message more, exists s, tns_str (message :: more) = Ok s /\
  Forall (fun l : text => l <> [] /\ length l <= 70) (lines s) /\ ink s = ink message.
Proof. intros message more. destruct (tns_lines message) as (s & ls & E & <- & I & F & _). exists s. auto. Qed.
Print Assumptions C75_message_printed.

(** Words that fit and have no break points stay in one piece. *)
Theorem C75_words_kept : forall message more s, Forall short_word (words message) -> tns_str (message :: more) = Ok s -> words s = words message.
Proof.
  intros message more s H E. destruct (tns_lines message) as (s' & ls & E' & _ & _ & _ & Hw). pose proof (eq_trans (eq_sym E') E) as Q. injection Q as Q. rewrite <- Q. now apply Hw.
Qed.
Print Assumptions C75_words_kept.

(** A short one-line message is printed as it is. *)
Theorem C75_short_message : forall message more, neat message -> length message <= 70 -> tns_str (message :: more) = Ok message.
Proof. intros message more N L. unfold tns_str, fill. rewrite (dedent_neat message N), (wrap_neat message N L). reflexivity. Qed.
Print Assumptions C75_short_message.

(** An exception raised without a message cannot be printed. *)
Theorem C75_no_message_refuted : tns_str [] = Err EIndex.
Proof. reflexivity. Qed.
Print Assumptions C75_no_message_refuted.

(** A hyphenated word can be torn apart. *)
Theorem C75_hyphen_refuted : exists message s, Forall (fun w : text => length w <= 70) (words message) /\ tns_str [message] = Ok s /\ words s <> words message.
Proof.
  exists (repeat "a"%char 62 ++ txt " well-known"). eexists. split; [|split; [vm_compute; reflexivity|]].
  - vm_compute. repeat constructor.
  - intro H. vm_compute in H. discriminate.
Qed.
Print Assumptions C75_hyphen_refuted.

(** C76: the indentation of a message in the source code does not show. *)
Theorem C76_indentation : forall p message message' more, indentation p -> Forall one_line message -> indented p message message' ->
  tns_str (unlines message' :: more) = tns_str (unlines message :: more).
Proof. intros p m m' more Hp L I. unfold tns_str. now rewrite (dedent_indented p m m' Hp L I). Qed.
Print Assumptions C76_indentation.

Definition closed_message : text := txt "This is not a closed flux surface.".
Example C75_example : neat closed_message /\ length closed_message <= 70 /\ Forall short_word (words closed_message) /\ tns_str [closed_message] = Ok closed_message.
Proof.
  assert (N : neat closed_message).
  { split; [|split]. - apply Forall_forall. intros c Hc. cbn in Hc. repeat (destruct Hc as [<-|Hc]; [vm_compute; congruence|]). destruct Hc.
    - do 2 eexists. split; [reflexivity|reflexivity].
    - exists (txt "This is not a closed flux surface"), "."%char. split; reflexivity. }
  split; [exact N|]. split; [cbn; lia|]. split; [|apply C75_short_message; [exact N|cbn; lia]].
  vm_compute. repeat constructor; discriminate.
Qed.
Example C76_example : exists message message', indentation (txt "    ") /\ Forall one_line message /\ indented (txt "    ") message message' /\ message <> message'.
Proof.
  exists [txt "Two"; txt ""; txt "  lines"], [txt "    Two"; txt ""; txt "      lines"]. split; [repeat constructor|]. split; [repeat constructor; discriminate|]. split; [|discriminate].
  constructor. apply indented_empty; [constructor|constructor|]. apply (indented_text (txt "    ") (txt "  lines") [] []). constructor.
Qed.
