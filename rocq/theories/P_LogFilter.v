(** Property C64: duplicate warnings are filtered inside the block, and only there. *)
From Coq Require Import String List Bool Arith Lia.
From Verif Require Import LogFilter SpecLogFilter.
Import ListNotations.

Lemma run_with st f names body : run st (With f names body) =
  let '(out, st', raised) := run_all (enter names st f) body in (out, exit names st' f, raised).
Proof.
  cbn [run]. set (go := fix go st l := match l with [] => _ | _ :: _ => _ end).
  assert (E : forall l st, go st l = run_all st l).
  { induction l as [|a l IH]; intro s; cbn; [reflexivity|]. destruct (run s a) as [[o s'] r]. destruct r; [reflexivity|]. now rewrite IH. }
  now rewrite E.
Qed.

Lemma memb_str_In m l : memb_str m l = true <-> In m l.
Proof. unfold memb_str. rewrite existsb_exists. split; [intros (x & H & E); apply String.eqb_eq in E; now subst|intro H; exists m; split; [exact H|apply String.eqb_refl]]. Qed.
Lemma memb_str_app m a b : memb_str m (a ++ b) = memb_str m a || memb_str m b.
Proof. apply existsb_app. Qed.
Lemma memb_str_1 m x : memb_str m [x] = String.eqb m x.
Proof. cbn. apply orb_false_r. Qed.
Lemma existsb_nat f l : existsb (Nat.eqb f) l = true <-> In f l.
Proof. rewrite existsb_exists. split; [intros (x & H & E); apply Nat.eqb_eq in E; now subst|intro H; exists f; split; [exact H|apply Nat.eqb_refl]]. Qed.

(** ** Entering and leaving *)
Lemma attached_enter names f : forall st, (forall n, ~ In f (attached st n)) ->
  forall n, attached (enter names st f) n = attached st n ++ (if memb_str n names then [f] else []).
Proof.
  assert (G : forall names st, (forall n, In f (attached st n) -> exists l, attached st n = l ++ [f] /\ ~ In f l) ->
    forall n, attached (enter names st f) n = if existsb (Nat.eqb f) (attached st n) then attached st n else attached st n ++ (if memb_str n names then [f] else [])).
  { clear names. induction names as [|k names IH]; intros st H n; cbn [enter fold_left].
    - destruct (existsb _ _); [reflexivity|]. cbn. now rewrite app_nil_r.
    - change (fold_left _ names (add_filter st k f)) with (enter names (add_filter st k f) f). rewrite IH.
      + unfold add_filter. destruct (existsb (Nat.eqb f) (attached st k)) eqn:Q; cbn [attached].
        * destruct (existsb (Nat.eqb f) (attached st n)) eqn:Qn; [reflexivity|]. f_equal. cbn [memb_str existsb]. destruct (String.eqb_spec n k); [subst; congruence|reflexivity].
        * destruct (String.eqb_spec n k) as [->|Nk].
          -- rewrite Q. assert (existsb (Nat.eqb f) (attached st k ++ [f]) = true) as ->; [apply existsb_nat, in_or_app; right; now left|].
             cbn [memb_str existsb]. now rewrite String.eqb_refl.
          -- destruct (existsb (Nat.eqb f) (attached st n)); [reflexivity|]. cbn [memb_str existsb]. apply String.eqb_neq in Nk. now rewrite Nk.
      + intros n' Hn. unfold add_filter in *. destruct (existsb (Nat.eqb f) (attached st k)) eqn:Q; [now apply H|]. cbn [attached] in *.
        destruct (String.eqb_spec n' k) as [->|_]; [|now apply H]. exists (attached st k). split; [reflexivity|]. intro C. apply existsb_nat in C. congruence. }
  intros st H n. rewrite G by (intros n' C; now apply H in C).
  destruct (existsb (Nat.eqb f) (attached st n)) eqn:Q; [|reflexivity]. apply existsb_nat in Q. now apply H in Q.
Qed.
Lemma msgs_enter names f st : msgs (enter names st f) = msgs st.
Proof.
  revert st; induction names as [|k names IH]; intro st; [reflexivity|]. cbn [enter fold_left].
  change (fold_left _ names (add_filter st k f)) with (enter names (add_filter st k f) f). rewrite IH. unfold add_filter. now destruct (existsb _ _).
Qed.
Lemma msgs_exit names f st : msgs (exit names st f) = msgs st.
Proof. revert st; induction names as [|k names IH]; intro st; [reflexivity|]. cbn [exit fold_left]. exact (IH (remove_filter st k f)). Qed.
Lemma remove_absent f l : ~ In f l -> remove_first f l = l.
Proof. induction l as [|g l IH]; intro H; [reflexivity|]. cbn. destruct (Nat.eqb_spec f g); [subst; exfalso; apply H; now left|]. f_equal. apply IH. intro; apply H; now right. Qed.
Lemma remove_last f l : ~ In f l -> remove_first f (l ++ [f]) = l.
Proof. induction l as [|g l IH]; intro H; cbn; [now rewrite Nat.eqb_refl|]. destruct (Nat.eqb_spec f g); [subst; exfalso; apply H; now left|]. f_equal. apply IH. intro; apply H; now right. Qed.
(** Removing what entering added. *)
Lemma attached_exit names f (base : string -> list filter_id) : (forall n, ~ In f (base n)) -> forall st,
  (forall n, attached st n = base n ++ (if memb_str n names then [f] else [])) -> forall n, attached (exit names st f) n = base n.
Proof.
  intro Hb.
  assert (G : forall names st, (forall n, attached st n = base n \/ (In n names /\ attached st n = base n ++ [f])) -> forall n, attached (exit names st f) n = base n).
  { clear names. induction names as [|k names IH]; intros st H n; cbn [exit fold_left].
    - destruct (H n) as [E|[[] _]]. exact E.
    - change (fold_left _ names (remove_filter st k f)) with (exit names (remove_filter st k f) f). apply IH. intro n'. unfold remove_filter; cbn [attached].
      destruct (String.eqb_spec n' k) as [->|Nk].
      + left. destruct (H k) as [-> | [_ ->]]; [apply remove_absent, Hb|apply remove_last, Hb].
      + destruct (H n') as [E|[[<-|I] E]]; [now left|congruence|now right]. }
  intros st H n. apply G. intro n'. rewrite H. destruct (memb_str n' names) eqn:Q; [right; split; [now apply memb_str_In|reflexivity]|left; apply app_nil_r].
Qed.

(** Logging changes no attachments. *)
Lemma attached_wf st f m : attached (snd (wf_filter st f m)) = attached st.
Proof. unfold wf_filter. cbn [snd]. now destruct (memb_str _ _). Qed.
Lemma attached_filters fs m : forall st, attached (snd (run_filters st fs m)) = attached st.
Proof.
  induction fs as [|f fs IH]; intro st; [reflexivity|]. cbn [run_filters]. pose proof (attached_wf st f m) as A.
  destruct (wf_filter st f m) as [ok st']. cbn [snd] in A. destruct ok; [now rewrite IH|exact A].
Qed.
Lemma attached_handle st r : attached (snd (handle st r)) = attached st.
Proof. unfold handle. pose proof (attached_filters (attached st (logger r)) (msg r) st) as A. destruct (run_filters _ _ _) as [ok st']. exact A. Qed.

(** ** Scoping *)
Section Action_ind.
  Variable P : action -> Prop.
  Hypothesis HL : forall r, P (Log r).
  Hypothesis HR : P Raise.
  Hypothesis HW : forall f names body, Forall P body -> P (With f names body).
  Fixpoint action_ind_nested (a : action) : P a :=
    match a with
    | Log r => HL r
    | Raise => HR
    | With f names body => HW f names body ((fix go l : Forall P l := match l with [] => Forall_nil P | x :: l' => Forall_cons x (action_ind_nested x) (go l') end) body)
    end.
End Action_ind.

Lemma run_all_attached l : Forall (fun a => forall active st, well_nested active a -> (forall n f, In f (attached st n) -> In f active) ->
    forall n, attached (snd (fst (run st a))) n = attached st n) l ->
  forall active st, (forall a, In a l -> well_nested active a) -> (forall n f, In f (attached st n) -> In f active) ->
    forall n, attached (snd (fst (run_all st l))) n = attached st n.
Proof.
  induction 1 as [|a l Ha Hl IH]; intros active st W H n; [reflexivity|]. cbn [run_all].
  assert (A := Ha active st (W a (or_introl eq_refl)) H).
  destruct (run st a) as [[o s'] r] eqn:Er. cbn [fst snd] in A. destruct r; [exact (A n)|].
  assert (B : forall n, attached (snd (fst (run_all s' l))) n = attached s' n).
  { apply (IH active); [intros; apply W; now right|]. intros n' f Hf. rewrite A in Hf. now apply (H n'). }
  destruct (run_all s' l) as [[o' s''] r']. cbn [fst snd] in *. now rewrite B.
Qed.
Lemma run_attached a : forall active st, well_nested active a -> (forall n f, In f (attached st n) -> In f active) ->
  forall n, attached (snd (fst (run st a))) n = attached st n.
Proof.
  induction a as [r| |f names body IH] using action_ind_nested; intros active st W H n.
  - cbn [run]. pose proof (attached_handle st r) as A. destruct (handle st r). cbn [fst snd] in *. now rewrite A.
  - reflexivity.
  - inversion W as [| |? ? ? ? Nf Wb]; subst. rewrite run_with.
    assert (Fr : forall n, ~ In f (attached st n)) by (intros n' C; apply Nf, (H n' f C)).
    pose proof (attached_enter names f st Fr) as E.
    assert (B : forall n, attached (snd (fst (run_all (enter names st f) body))) n = attached (enter names st f) n).
    { apply (run_all_attached body IH (f :: active)); [exact Wb|]. intros n' g. rewrite E. intro I. apply in_app_or in I. destruct I as [I|I]; [right; now apply (H n')|].
      destruct (memb_str n' names); [destruct I as [<-|[]]; now left|contradiction]. }
    destruct (run_all _ body) as [[o s'] raised]. cbn [fst snd] in *.
    apply (attached_exit names f (attached st) Fr). intro n'. now rewrite B, E.
Qed.

(** ** What one filter does to a sequence of records *)
Lemma handle_one st f names r : (forall n, attached st n = if memb_str n names then [f] else []) ->
  handle st r = if memb_str (logger r) names
                then if memb_str (msg r) (msgs st f) then ([], st)
                     else ([r], {| attached := attached st; msgs := fun g => if Nat.eqb g f then msg r :: msgs st f else msgs st g |})
                else ([r], st).
Proof.
  intro H. unfold handle. rewrite H. destruct (memb_str (logger r) names); cbn [run_filters]; [|reflexivity].
  unfold wf_filter. destruct (memb_str (msg r) (msgs st f)); reflexivity.
Qed.

Definition sent_msgs (names : list string) (l : list log_record) : list string := map msg (filter (fun r => memb_str (logger r) names) l).

Lemma quiet_run f names rest : forall rs st before out0,
  (forall n, attached st n = if memb_str n names then [f] else []) ->
  (forall m, In m (msgs st f) <-> In m (sent_msgs names before)) -> quiet_output names before out0 ->
  exists out st', run_all st (map Log rs ++ rest) = (let '(o, s, r) := run_all st' rest in (out ++ o, s, r)) /\
    quiet_output names (before ++ rs) (out0 ++ out) /\ (forall n, attached st' n = attached st n).
Proof.
  induction rs as [|r rs IH]; intros st before out0 Ha Hm Q.
  - exists [], st. cbn [map app]. rewrite !app_nil_r. destruct (run_all st rest) as [[o s] b]. auto.
  - cbn [map app run_all run]. rewrite (handle_one st f names r Ha).
    assert (K : kept names before r <-> (memb_str (logger r) names && memb_str (msg r) (msgs st f)) = false).
    { unfold kept. split.
      - intros [N|N]; apply andb_false_iff; [left|right].
        + destruct (memb_str (logger r) names) eqn:E; [apply memb_str_In in E; contradiction|reflexivity].
        + destruct (memb_str (msg r) (msgs st f)) eqn:E; [|reflexivity]. apply memb_str_In, Hm in E. unfold sent_msgs in E. apply in_map_iff in E.
          destruct E as (r' & Em & I). apply filter_In in I. destruct I as [I1 I2]. apply memb_str_In in I2. now elim (N r' I1 I2).
      - intro E. apply andb_false_iff in E. destruct E as [E|E]; [left|right].
        + intro C. apply memb_str_In in C. congruence.
        + intros r' I1 I2 Em. assert (C : In (msg r) (msgs st f)); [|apply memb_str_In in C; congruence]. apply Hm. unfold sent_msgs. rewrite <- Em. apply in_map, filter_In.
          split; [exact I1|now apply memb_str_In]. }
    assert (Step : forall st2 b, (forall n, attached st2 n = attached st n) -> (forall m, In m (msgs st2 f) <-> In m (sent_msgs names (before ++ [r]))) ->
      (b = true -> kept names before r) -> (b = false -> ~ kept names before r) ->
      exists out st', (let '(out', st, raised) := run_all st2 (map Log rs ++ rest) in ((if b then [r] else []) ++ out', st, raised)) =
        (let '(o, s, r0) := run_all st' rest in (out ++ o, s, r0)) /\ quiet_output names (before ++ r :: rs) (out0 ++ out) /\ (forall n, attached st' n = attached st n)).
    { intros st2 b Ha2 Hm2 Kt Kf.
      destruct (IH st2 (before ++ [r]) (out0 ++ (if b then [r] else []))) as (out & st' & E & Q' & A').
      - intro n. now rewrite Ha2.
      - exact Hm2.
      - destruct b; [apply quiet_keep; auto|rewrite app_nil_r; apply quiet_drop; auto].
      - exists ((if b then [r] else []) ++ out), st'. rewrite E. destruct (run_all st' rest) as [[o s] r0]. rewrite <- !app_assoc in Q'. cbn [app] in Q'.
        split; [now rewrite app_assoc|]. split; [exact Q'|]. intro n. now rewrite A', Ha2. }
    assert (SM : forall m, In m (sent_msgs names (before ++ [r])) <-> In m (sent_msgs names before) \/ (memb_str (logger r) names = true /\ m = msg r)).
    { intro m. unfold sent_msgs. rewrite filter_app, map_app, in_app_iff. cbn [filter]. destruct (memb_str (logger r) names); cbn; intuition congruence. }
    destruct (memb_str (logger r) names) eqn:L; cbn [andb] in K.
    + destruct (memb_str (msg r) (msgs st f)) eqn:D.
      * apply (Step st false); [reflexivity| |discriminate|intros _; rewrite K; discriminate].
        intro m. rewrite SM, Hm. apply memb_str_In, Hm in D. intuition congruence.
      * apply (Step _ true); [reflexivity| |intros _; now apply K|discriminate].
        intro m. cbn [msgs]. rewrite Nat.eqb_refl, SM. cbn [In]. rewrite Hm. intuition congruence.
    + apply (Step st true); [reflexivity| |intros _; now apply K|discriminate].
      intro m. rewrite SM, Hm. intuition congruence.
Qed.

(** Inside the block, whatever is logged and whether or not the block is left by an exception. *)
Theorem C64_inside_block : forall st f names records raise rest, no_filters st -> msgs st f = [] ->
  exists out st', run st (With f names (map Log records ++ (if raise : bool then Raise :: rest else []))) = (out, st', raise) /\
    quiet_output names records out /\ no_filters st'.
Proof.
  intros st f names rs raise rest N Hm. rewrite run_with.
  assert (Fr : forall n, ~ In f (attached st n)) by (intro n; rewrite N; auto).
  assert (E : forall n, attached (enter names st f) n = if memb_str n names then [f] else []) by (intro n; now rewrite (attached_enter names f st Fr), N).
  destruct (quiet_run f names (if raise then Raise :: rest else []) rs (enter names st f) [] []) as (out & st' & R & Q & A).
  - exact E.
  - intro m. rewrite msgs_enter, Hm. reflexivity.
  - constructor.
  - rewrite R. exists out, (exit names st' f).
    assert (Ex : no_filters (exit names st' f)).
    { intro n. apply (attached_exit names f (fun _ => [])); [auto|]. intro n'. rewrite A, E. reflexivity. }
    destruct raise; cbn [run_all run]; rewrite app_nil_r; auto.
Qed.
Print Assumptions C64_inside_block.

(** Reading the specification: each message sent to a filtered logger is emitted exactly once, at its first occurrence;
    the other loggers' records are all emitted; and the order is kept. *)
Theorem C64_exactly_once : forall names sent emitted, quiet_output names sent emitted ->
  (forall m, In m (map msg (filter (fun r => memb_str (logger r) names) sent)) ->
     count_occ string_dec (map msg (filter (fun r => memb_str (logger r) names) emitted)) m = 1) /\
  filter (fun r => negb (memb_str (logger r) names)) emitted = filter (fun r => negb (memb_str (logger r) names)) sent /\
  (forall r, In r emitted -> In r sent).
Proof.
  intros names sent emitted Q.
  assert (G : (forall m, count_occ string_dec (map msg (filter (fun r => memb_str (logger r) names) emitted)) m =
     if memb_str m (map msg (filter (fun r => memb_str (logger r) names) sent)) then 1 else 0) /\
     filter (fun r => negb (memb_str (logger r) names)) emitted = filter (fun r => negb (memb_str (logger r) names)) sent /\ (forall r, In r emitted -> In r sent)).
  { induction Q as [|sent emitted r Q (I1 & I2 & I3) K|sent emitted r Q (I1 & I2 & I3) K].
    - split; [reflexivity|]. auto.
    - split; [|split].
      + intro m. rewrite !filter_app, !map_app, count_occ_app, I1, memb_str_app. cbn [filter].
        destruct (memb_str (logger r) names) eqn:L; cbn [map count_occ]; [|now rewrite orb_false_r, Nat.add_0_r]. rewrite memb_str_1.
        destruct (string_dec (msg r) m) as [<-|Nm].
        * rewrite String.eqb_refl. destruct (memb_str (msg r) (map msg _)) eqn:D; [|reflexivity].
          apply memb_str_In, in_map_iff in D. destruct D as (r' & Em & I). apply filter_In in I. destruct I as [Ia Ib]. apply memb_str_In in Ib.
          destruct K as [K|K]; [apply memb_str_In in L; contradiction|]. now elim (K r' Ia Ib).
        * assert (String.eqb m (msg r) = false) as -> by (apply String.eqb_neq; congruence). now rewrite orb_false_r, Nat.add_0_r.
      + now rewrite !filter_app, I2.
      + intros r' H. apply in_or_app. apply in_app_or in H. destruct H as [H|H]; [left; now apply I3|now right].
    - assert (Kb : memb_str (logger r) names = true /\ memb_str (msg r) (map msg (filter (fun r0 => memb_str (logger r0) names) sent)) = true).
      { destruct (memb_str (logger r) names) eqn:L; [split; [reflexivity|]|].
        - destruct (memb_str (msg r) _) eqn:D; [reflexivity|]. elim K. right. intros r' Ia Ib Em.
          assert (C : In (msg r) (map msg (filter (fun r0 => memb_str (logger r0) names) sent))).
          { rewrite <- Em. apply in_map, filter_In. split; [exact Ia|now apply memb_str_In]. } apply memb_str_In in C. congruence.
        - elim K. left. intro C. apply memb_str_In in C. congruence. }
      destruct Kb as [L D]. split; [|split].
      + intro m. rewrite I1, filter_app, map_app, memb_str_app. cbn [filter]. rewrite L. cbn [map]. rewrite memb_str_1.
        destruct (String.eqb_spec m (msg r)) as [->|Nm]; [now rewrite D|now rewrite orb_false_r].
      + rewrite I2, filter_app. cbn [filter]. rewrite L. cbn. now rewrite app_nil_r.
      + intros r' H. apply in_or_app. left. now apply I3. }
  destruct G as (G1 & G2 & G3). split; [|auto]. intros m Hm. rewrite G1. apply memb_str_In in Hm. now rewrite Hm.
Qed.
Print Assumptions C64_exactly_once.

(** After any properly nested program nothing is filtered any more: every later record is emitted. *)
Theorem C64_nothing_filtered_afterwards : forall st a records, no_filters st -> well_nested [] a ->
  let '(_, st', _) := run st a in no_filters st' /\ fst (fst (run_all st' (map Log records))) = records.
Proof.
  intros st a rs N W. pose proof (run_attached a [] st W) as A. destruct (run st a) as [[o st'] b]. cbn [fst snd] in A.
  assert (N' : no_filters st') by (intro n; rewrite A; [apply N|intros n' f; rewrite N; auto]).
  split; [exact N'|]. clear A N. revert st' N'. induction rs as [|r rs IH]; intros st' N'; [reflexivity|]. cbn [map run_all run].
  unfold handle. rewrite N'. cbn [run_filters]. specialize (IH st' N'). destruct (run_all st' (map Log rs)) as [[o' s'] b']. cbn [fst snd app] in *. now rewrite IH.
Qed.
Print Assumptions C64_nothing_filtered_afterwards.

(** The helper used for the OpenMC sources is the same filter: on records of filtered loggers it is what the block emits. *)
Theorem C64_sequence_filter : forall names records out, (forall r, In r records -> In (logger r) names) ->
  quiet_output names records out -> map msg out = filter_duplicates String.eqb [] (map msg records).
Proof.
  intros names rs out Hl Q.
  assert (S : forall l seen m, filter_duplicates String.eqb seen (l ++ [m]) = filter_duplicates String.eqb seen l ++ (if memb_str m l || memb_str m seen then [] else [m])).
  { clear. induction l as [|x l IH]; intros seen m; cbn [app filter_duplicates].
    - cbn. unfold memb_str. now destruct (existsb (String.eqb m) seen).
    - destruct (existsb (String.eqb x) seen) eqn:Q; rewrite IH; cbn [memb_str existsb]; fold (memb_str m l); fold (memb_str m seen).
      + f_equal. destruct (String.eqb_spec m x) as [->|]; [|reflexivity]. assert (memb_str x seen = true) as -> by exact Q. now rewrite orb_true_r.
      + cbn [app]. f_equal. f_equal. destruct (String.eqb m x), (memb_str m l), (memb_str m seen); reflexivity. }
  induction Q as [|sent emitted r Q IH K|sent emitted r Q IH K]; [reflexivity| |].
  - rewrite !map_app. cbn [map]. rewrite S, IH by (intros; apply Hl, in_or_app; now left). f_equal.
    assert (memb_str (msg r) (map msg sent) = false) as ->; [|reflexivity].
    destruct (memb_str (msg r) (map msg sent)) eqn:D; [|reflexivity]. apply memb_str_In, in_map_iff in D. destruct D as (r' & Em & I).
    destruct K as [K|K]; [elim K; apply Hl, in_or_app; right; now left|]. elim (K r' I); [|exact Em]. apply Hl, in_or_app. now left.
  - rewrite map_app. cbn [map]. rewrite S, IH by (intros; apply Hl, in_or_app; now left).
    assert (memb_str (msg r) (map msg sent) = true) as ->; [|now rewrite app_nil_r].
    destruct (memb_str (msg r) (map msg sent)) eqn:D; [reflexivity|]. elim K. right. intros r' I _ Em.
    assert (C : In (msg r) (map msg sent)) by (rewrite <- Em; now apply in_map). apply memb_str_In in C. congruence.
Qed.
Print Assumptions C64_sequence_filter.

(** Re-entering a block of the same object: the inner exit switches the filter off for the rest of the outer block. *)
Theorem C64_reentered_object_refuted : forall st f n, no_filters st -> msgs st f = [] -> forall r, logger r = n ->
  fst (fst (run st (With f [n] [Log r; With f [n] []; Log r]))) = [r; r] /\
  fst (fst (run st (With f [n] [Log r; Log r]))) = [r].
Proof.
  intros st f n N Hm r <-. unfold no_filters in N.
  split; cbn [run run_all enter exit fold_left];
  repeat (unfold handle, add_filter, remove_filter, wf_filter; rewrite ?N, ?Hm, ?String.eqb_refl, ?Nat.eqb_refl;
          cbn [attached msgs app existsb run_filters memb_str negb orb logger msg remove_first]; rewrite ?N, ?Hm, ?String.eqb_refl, ?Nat.eqb_refl); reflexivity.
Qed.
Print Assumptions C64_reentered_object_refuted.

(** Three cells with T-T warnings, one repeated, and a record of another logger. *)
Example C64_example :
  let a := {| logger := "tokamak_neutron_source.energy"%string; msg := "no fit"%string |} in
  let b := {| logger := "tokamak_neutron_source.energy_data"%string; msg := "clipped 0.5"%string |} in
  let c := {| logger := "tokamak_neutron_source.main"%string; msg := "no fit"%string |} in
  let st := {| attached := fun _ => []; msgs := fun _ => [] |} in
  no_filters st /\ fst (fst (run st (With 0 quiet_names (map Log [a; b; c; a; b; c])))) = [a; b; c; c] /\
  well_nested [] (With 0 quiet_names [Log a; With 1 quiet_names [Log b]; Raise]).
Proof.
  cbv zeta. split; [intro; reflexivity|]. split; [reflexivity|].
  constructor; [auto|]. intros x [<-|[<-|[<-|[]]]]; constructor.
  - intros [H|[]]; discriminate.
  - intros y [<-|[]]; constructor.
Qed.
