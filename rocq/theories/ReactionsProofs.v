From Coq Require Import String Ascii List Arith Bool Lia Sorted Permutation.
From Verif Require Import Base Reactions SpecReactions.
Local Open Scope string_scope.
Local Open Scope list_scope.

Lemma reaction_eqb_spec a b : reflect (a = b) (reaction_eqb a b).
Proof. unfold reaction_eqb; destruct (reaction_eq_dec a b); constructor; assumption. Qed.

Lemma memb_In r l : memb r l = true <-> In r l.
Proof.
  unfold memb; rewrite existsb_exists; split.
  - intros [x [H1 H2]]; destruct (reaction_eqb_spec r x); subst; [assumption|discriminate].
  - intro H; exists r; split; [assumption|]. destruct (reaction_eqb_spec r r); congruence.
Qed.

(** ** Strings *)
Lemma replace_hyphen_String c s t :
  replace_hyphen s = String c t ->
  exists c' t', s = String c' t' /\ replace_hyphen t' = t /\ (c' = c /\ c' <> "-"%char \/ c' = "-"%char /\ c = "_"%char).
Proof.
  destruct s as [|c' t']; cbn; [discriminate|]. intro H; injection H as <- <-.
  exists c', t'; repeat split. destruct (Ascii.eqb_spec c' "-"%char); subst; auto.
Qed.
Lemma replace_hyphen_Empty s : replace_hyphen s = "" -> s = "".
Proof. destruct s; cbn; [reflexivity|discriminate]. Qed.

Ltac unhyphen :=
  repeat match goal with
  | H : replace_hyphen _ = String _ _ |- _ =>
      apply replace_hyphen_String in H;
      let c := fresh "c" in let t := fresh "t" in let Hc := fresh "Hc" in
      destruct H as [c [t [-> [H [[Hc _]|[Hc ?]]]]]]; [subst c|subst c; try discriminate]
  | H : replace_hyphen _ = EmptyString |- _ => apply replace_hyphen_Empty in H; subst
  end.

Lemma parse_str_iff s r : parse_reaction (IStr s) = Ok r <-> In (s, r) spellings.
Proof.
  split.
  - cbn [parse_reaction]. unfold reactions_lookup, aneutronic_lookup.
    destruct (string_dec (replace_hyphen s) "D_T") as [H|_];
      [intro E; injection E as <-; unhyphen; cbn; tauto|].
    destruct (string_dec (replace_hyphen s) "D_D") as [H|_];
      [intro E; injection E as <-; unhyphen; cbn; tauto|].
    destruct (string_dec (replace_hyphen s) "T_T") as [H|_];
      [intro E; injection E as <-; unhyphen; cbn; tauto|].
    destruct (string_dec (replace_hyphen s) "D_He3") as [H|_];
      [intro E; injection E as <-; unhyphen; cbn; tauto|].
    discriminate.
  - cbn [In spellings].
    intro H; repeat (destruct H as [H|H]; [injection H as <- <-; reflexivity|]); destruct H.
Qed.

Lemma parse_reaction_iff x r : parse_reaction x = Ok r <-> names x r.
Proof.
  destruct x as [s|r'|].
  - rewrite parse_str_iff; split; [now constructor|now inversion 1].
  - cbn; split; [intro H; injection H as <-; constructor|inversion 1; reflexivity].
  - split; [discriminate|inversion 1].
Qed.

Lemma parse_reaction_total x : (exists r, parse_reaction x = Ok r) \/ parse_reaction x = Err EReactivity.
Proof.
  destruct x as [s|r|]; cbn; eauto.
  destruct (reactions_lookup _); eauto. destruct (aneutronic_lookup _); eauto.
Qed.

Lemma parse_reaction_err x : parse_reaction x = Err EReactivity <-> ~ exists r, names x r.
Proof.
  destruct (parse_reaction_total x) as [[r H]|H]; rewrite H; split; try congruence.
  - apply parse_reaction_iff in H; intros C; exfalso; eauto.
  - intros _ [r Hr]; apply parse_reaction_iff in Hr; congruence.
Qed.

(** ** Deduplication and sorting *)
Lemma unique_from_In seen l x : In x (unique_from seen l) <-> In x l /\ ~ In x seen.
Proof.
  revert seen; induction l as [|a l IH]; intro seen; cbn [unique_from]; [cbn; tauto|].
  destruct (memb a seen) eqn:E.
  - apply memb_In in E; rewrite IH; cbn; split; [tauto|intros [[->|H] H2]; tauto].
  - assert (Ha : ~ In a seen) by (intro C; apply memb_In in C; congruence).
    cbn; rewrite IH; cbn. destruct (reaction_eq_dec a x) as [->|Hx]; tauto.
Qed.
Lemma unique_from_NoDup seen l : NoDup (unique_from seen l).
Proof.
  revert seen; induction l as [|a l IH]; intro seen; cbn [unique_from]; [constructor|].
  destruct (memb a seen); [apply IH|]. constructor; [|apply IH].
  rewrite unique_from_In; cbn; tauto.
Qed.

Lemma ordering_rank r : ordering r = Ok (rank r).
Proof. destruct r; reflexivity. Qed.

Lemma insert_key_perm p l : Permutation (p :: l) (insert_key p l).
Proof.
  induction l as [|q l IH]; cbn [insert_key]; [reflexivity|].
  destruct (Nat.leb _ _); [|reflexivity].
  rewrite perm_swap; now constructor.
Qed.
Lemma insert_key_sorted p l :
  StronglySorted (fun a b => fst a <= fst b)%nat l -> StronglySorted (fun a b => fst a <= fst b)%nat (insert_key p l).
Proof.
  induction 1 as [|q l Hs IH Hq]; cbn [insert_key]; [repeat constructor|].
  destruct (Nat.leb_spec (fst q) (fst p)).
  - constructor; [assumption|].
    rewrite Forall_forall in *. intros x Hx.
    apply (Permutation_in _ (Permutation_sym (insert_key_perm p l))) in Hx.
    destruct Hx as [<-|Hx]; [assumption|now apply Hq].
  - constructor; [now constructor|]. constructor; [lia|].
    rewrite Forall_forall in *; intros x Hx; specialize (Hq x Hx); lia.
Qed.
Lemma sort_keys_gen l acc :
  StronglySorted (fun a b => fst a <= fst b)%nat acc ->
  Permutation (l ++ acc) (fold_left (fun acc p => insert_key p acc) l acc) /\
  StronglySorted (fun a b => fst a <= fst b)%nat (fold_left (fun acc p => insert_key p acc) l acc).
Proof.
  revert acc; induction l as [|p l IH]; intros acc H; cbn [fold_left app]; [split; auto|].
  destruct (IH (insert_key p acc) (insert_key_sorted p acc H)) as [H1 H2]; split; [|assumption].
  rewrite <- H1. rewrite <- insert_key_perm. apply Permutation_middle.
Qed.

Lemma rank_inj a b : rank a = rank b -> a = b.
Proof. destruct a, b; cbn; congruence. Qed.

Lemma sorted_by_order_spec l :
  NoDup l ->
  exists l', sorted_by_order l = Ok l' /\ Permutation l l' /\ StronglySorted (fun a b => rank a < rank b)%nat l'.
Proof.
  intro Hnd. unfold sorted_by_order.
  rewrite (mapM_pure _ (fun r => (rank r, r))) by (intros a _; now rewrite ordering_rank).
  cbn [bind]. eexists; split; [reflexivity|].
  destruct (sort_keys_gen (map (fun r => (rank r, r)) l) [] (SSorted_nil _)) as [H1 H2].
  fold (sort_keys (map (fun r => (rank r, r)) l)) in H1, H2.
  rewrite app_nil_r in H1.
  assert (Hp : Permutation l (map snd (sort_keys (map (fun r => (rank r, r)) l)))).
  { rewrite <- H1, map_map; cbn; now rewrite map_id. }
  split; [exact Hp|].
  assert (Hall : forall p, In p (sort_keys (map (fun r => (rank r, r)) l)) -> fst p = rank (snd p)).
  { intros p Hpin. apply (Permutation_in _ (Permutation_sym H1)) in Hpin.
    apply in_map_iff in Hpin; destruct Hpin as [r [<- _]]; reflexivity. }
  assert (Hnd' : NoDup (map snd (sort_keys (map (fun r => (rank r, r)) l)))) by (eapply Permutation_NoDup; eauto).
  revert H2 Hall Hnd'. clear. generalize (sort_keys (map (fun r => (rank r, r)) l)) as s.
  induction 1 as [|p s Hs IH Hp]; intros Hall Hnd; cbn; [constructor|].
  cbn in Hnd; inversion Hnd as [|? ? Hnin Hnd']; subst.
  constructor; [apply IH; [intros; apply Hall; now right|assumption]|].
  rewrite Forall_forall in *. intros r Hr. apply in_map_iff in Hr; destruct Hr as [q [<- Hq]].
  specialize (Hp q Hq).
  rewrite (Hall p (or_introl eq_refl)), (Hall q (or_intror Hq)) in Hp.
  assert (rank (snd p) <> rank (snd q)); [|lia].
  intro C; apply rank_inj in C. apply Hnin; rewrite C; now apply in_map.
Qed.

(** ** Whole argument *)
Definition base_list (a : source_arg) : res (list reaction) :=
  match a with
  | SNone => Ok [DDn; DT; TT]
  | SStr s => do r <- parse_reaction (IStr s); Ok [r]
  | SReact r => do r' <- parse_reaction (IReact r); Ok [r']
  | SList l => mapM parse_reaction l
  | SOther => Err EReactivity
  end.

Lemma mapM_parse l :
  ((forall x, In x l -> exists r, names x r) /\
   exists rs, mapM parse_reaction l = Ok rs /\ forall r, In r rs <-> exists x, In x l /\ names x r)
  \/ ((exists x, In x l /\ ~ exists r, names x r) /\ mapM parse_reaction l = Err EReactivity).
Proof.
  induction l as [|a l IH]; cbn [mapM].
  - left; split; [intros x []|]. exists []; split; [reflexivity|].
    intro r; cbn; split; [tauto|intros [x [[] _]]].
  - destruct (parse_reaction_total a) as [[r Hr]|He].
    + rewrite Hr; cbn [bind]. apply parse_reaction_iff in Hr.
      assert (Huniq : forall r', names a r' -> r' = r).
      { intros r' Hr'. apply parse_reaction_iff in Hr, Hr'; congruence. }
      destruct IH as [[H1 [rs [H2 H3]]]|[[x [Hx Hn]] H2]]; rewrite H2; cbn [bind].
      * left; split; [intros x [->|Hx]; eauto|].
        eexists; split; [reflexivity|]. intro r'; cbn; rewrite H3; split.
        -- intros [<-|[x [Hx Hn]]]; eauto.
        -- intros [x [[<-|Hx] Hn]]; [left; symmetry; auto|eauto].
      * right; split; [exists x; cbn; auto|reflexivity].
    + rewrite He; cbn. apply parse_reaction_err in He. right; split; [exists a; cbn; auto|reflexivity].
Qed.

Lemma base_list_spec a :
  (valid_arg a /\ exists rs, base_list a = Ok rs /\ forall r, In r rs <-> asks a r)
  \/ (~ valid_arg a /\ base_list a = Err EReactivity).
Proof.
  destruct a as [|s|r|l|]; cbn [base_list valid_arg].
  - left; split; [exact I|]. eexists; split; [reflexivity|]. intro r; split; [now constructor|now inversion 1].
  - destruct (parse_reaction_total (IStr s)) as [[r Hr]|He].
    + rewrite Hr; cbn [bind]. apply parse_reaction_iff in Hr. left; split; [eauto|].
      eexists; split; [reflexivity|]. intro r'; cbn; split.
      * intros [<-|[]]; now constructor.
      * inversion 1; subst. left. apply parse_reaction_iff in Hr, H1. congruence.
    + rewrite He; cbn [bind]. apply parse_reaction_err in He; right; auto.
  - cbn. left; split; [exact I|]. eexists; split; [reflexivity|]. intro r'; cbn; split.
    + intros [<-|[]]; constructor.
    + inversion 1; auto.
  - destruct (mapM_parse l) as [[H1 [rs [H2 H3]]]|[[x [Hx Hn]] H2]].
    + left; split; [assumption|]. exists rs; split; [assumption|].
      intro r; rewrite H3; split; [intros [x [Hx Hn]]; econstructor; eauto|inversion 1; eauto].
    + right; split; [intro C; apply Hn, C, Hx|assumption].
  - right; split; [tauto|reflexivity].
Qed.

Lemma parse_source_type_base a :
  parse_source_type a = do l <- base_list a;
    (let l := if memb DDn l then l ++ [DDp] else l in sorted_by_order (unique_from [] l)).
Proof. destruct a; reflexivity. Qed.

Lemma parse_source_type_spec a :
  (valid_arg a -> exists out, parse_source_type a = Ok out /\
     (forall r, In r out <-> asks a r \/ (r = DDp /\ asks a DDn)) /\
     StronglySorted (fun x y => rank x < rank y)%nat out)
  /\ (~ valid_arg a -> parse_source_type a = Err EReactivity).
Proof.
  rewrite parse_source_type_base.
  destruct (base_list_spec a) as [[Hv [rs [Hb Hin]]]|[Hv Hb]]; rewrite Hb; cbn [bind]; split; try tauto.
  intros _.
  set (l := if memb DDn rs then rs ++ [DDp] else rs).
  destruct (sorted_by_order_spec (unique_from [] l) (unique_from_NoDup [] l)) as [out [H1 [H2 H3]]].
  exists out; split; [exact H1|]; split; [|exact H3].
  intro r. transitivity (In r l).
  { split; intro H.
    - apply (Permutation_in _ (Permutation_sym H2)) in H; apply unique_from_In in H; tauto.
    - apply (Permutation_in _ H2), unique_from_In; cbn; tauto. }
  unfold l; destruct (memb DDn rs) eqn:E.
  - apply memb_In in E. rewrite in_app_iff, <- !Hin; cbn. intuition congruence.
  - assert (~ In DDn rs) by (intro C; apply memb_In in C; congruence).
    rewrite <- !Hin. intuition congruence.
Qed.

Lemma sorted_rank_unique l1 l2 :
  StronglySorted (fun x y => rank x < rank y)%nat l1 ->
  StronglySorted (fun x y => rank x < rank y)%nat l2 ->
  (forall r, In r l1 <-> In r l2) -> l1 = l2.
Proof.
  revert l2; induction l1 as [|a l1 IH]; intros l2 H1 H2 Hin.
  - destruct l2 as [|b l2]; [reflexivity|]. destruct (proj2 (Hin b)); now left.
  - destruct l2 as [|b l2]; [destruct (proj1 (Hin a)); now left|].
    inversion H1 as [|? ? Hs1 Hf1]; inversion H2 as [|? ? Hs2 Hf2]; subst.
    rewrite Forall_forall in Hf1, Hf2.
    assert (a = b).
    { destruct (proj1 (Hin a) (or_introl eq_refl)) as [|Ha]; [congruence|].
      destruct (proj2 (Hin b) (or_introl eq_refl)) as [|Hb]; [congruence|].
      specialize (Hf1 b Hb); specialize (Hf2 a Ha); lia. }
    subst b; f_equal; apply IH; try assumption.
    intro r; split; intro Hr.
    + destruct (proj1 (Hin r) (or_intror Hr)) as [<-|]; [|assumption].
      specialize (Hf1 a Hr); lia.
    + destruct (proj2 (Hin r) (or_intror Hr)) as [<-|]; [|assumption].
      specialize (Hf2 a Hr); lia.
Qed.

Lemma parse_Ok_valid a out : parse_source_type a = Ok out -> valid_arg a.
Proof.
  intro H. destruct (base_list_spec a) as [[Hv _]|[Hv _]]; [exact Hv|].
  rewrite (proj2 (parse_source_type_spec a) Hv) in H; discriminate.
Qed.

Lemma parse_same_set a1 a2 :
  valid_arg a1 -> valid_arg a2 -> (forall r, asks a1 r <-> asks a2 r) ->
  parse_source_type a1 = parse_source_type a2.
Proof.
  intros V1 V2 H.
  destruct (proj1 (parse_source_type_spec a1) V1) as [o1 [E1 [I1 S1]]].
  destruct (proj1 (parse_source_type_spec a2) V2) as [o2 [E2 [I2 S2]]].
  rewrite E1, E2; f_equal. apply sorted_rank_unique; try assumption.
  intro r; rewrite I1, I2, !H; tauto.
Qed.

Lemma parse_idempotent a out :
  parse_source_type a = Ok out -> parse_source_type (SList (map IReact out)) = Ok out.
Proof.
  intro H. pose proof (parse_Ok_valid _ _ H) as V.
  destruct (proj1 (parse_source_type_spec a) V) as [o1 [E1 [I1 S1]]].
  assert (o1 = out) by congruence; subst o1.
  set (a2 := SList (map IReact out)).
  assert (Hasks : forall r, asks a2 r <-> In r out).
  { intro r; split.
    - inversion 1; subst. apply in_map_iff in H2; destruct H2 as [y [<- Hy]]. inversion H3; subst; assumption.
    - intro Hr; econstructor; [apply in_map; exact Hr|constructor]. }
  assert (V2 : valid_arg a2).
  { intros x Hx; apply in_map_iff in Hx; destruct Hx as [y [<- _]]; eexists; constructor. }
  destruct (proj1 (parse_source_type_spec a2) V2) as [o2 [E2 [I2 S2]]].
  rewrite E2; f_equal. apply sorted_rank_unique; try assumption.
  intro r; rewrite I2, !Hasks, !I1.
  split; [|tauto].
  intros [h|[-> [h|[h _]]]]; [exact h|right; auto|discriminate].
Qed.
