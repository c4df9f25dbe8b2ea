(** Lemmas about the file operations. *)
From Coq Require Import Ascii String List Bool Arith ZArith Lia.
From Verif Require Import Base Reactions Space Source SpectraData Energy TextWrap SpecText TextProofs ErrorProofs Format Mcnp SpecMcnp McnpProofs McnpIO SpecIO.

Lemma put_same d n t : put d n t n = Some t.
Proof. unfold put. now destruct (list_eq_dec ascii_dec n n). Qed.
Lemma put_other d n t x : x <> n -> put d n t x = d x.
Proof. unfold put. now destruct (list_eq_dec ascii_dec x n). Qed.
Lemma run_app a b s : run (a ++ b) s = run b (run a s).
Proof. apply fold_left_app. Qed.

(** The operations that write one file in pieces. *)
Definition file_ops (n : text) (pieces : list text) : list file_op := FOpen n :: map FWrite pieces ++ [FClose].
Lemma run_writes pieces d n w : run (map FWrite pieces) (d, Some (n, w)) = (d, Some (n, w ++ concat pieces)).
Proof. revert w. induction pieces as [|p l IH]; intro w; cbn [map concat]; [now rewrite app_nil_r|]. unfold run in *. cbn [fold_left step]. now rewrite IH, app_assoc. Qed.
Lemma run_file n pieces d o : run (file_ops n pieces) (d, o) = (put (put d n []) n (concat pieces), None).
Proof.
  unfold file_ops. change (FOpen n :: map FWrite pieces ++ [FClose]) with ([FOpen n] ++ map FWrite pieces ++ [FClose]). rewrite !run_app.
  assert (E : run [FOpen n] (d, o) = (put d n [], Some (n, []))) by (destruct o as [[? ?]|]; reflexivity). rewrite E, run_writes. reflexivity.
Qed.
Lemma put_put d n t t' x : put (put d n t) n t' x = put d n t' x.
Proof. unfold put. now destruct (list_eq_dec ascii_dec x n). Qed.

(** Disks are compared pointwise. *)
Lemma put_ext a b n t : same_disk a b -> same_disk (put a n t) (put b n t).
Proof. intros H x. unfold put. now destruct (list_eq_dec ascii_dec x n). Qed.
Lemma with_files_ext l : forall a b, same_disk a b -> same_disk (with_files a l) (with_files b l).
Proof. induction l as [|f l IH]; intros a b H; [exact H|]. cbn. apply IH. now apply put_ext. Qed.
Lemma with_files_other l : forall d x, ~ In x (map fst l) -> with_files d l x = d x.
Proof.
  induction l as [|[n t] l IH]; intros d x H; [reflexivity|]. cbn in *. change (fold_left (fun d f => put d (fst f) (snd f)) l (put d n t)) with (with_files (put d n t) l).
  rewrite IH by tauto. apply put_other. intuition.
Qed.
Lemma with_files_in l : NoDup (map fst l) -> forall d n t, In (n, t) l -> with_files d l n = Some t.
Proof.
  induction l as [|[n' t'] l IH]; intros N d n t H; [destruct H|]. cbn in N. inversion N as [|? ? N1 N2]; subst. cbn. change (fold_left (fun d f => put d (fst f) (snd f)) l (put d n' t')) with (with_files (put d n' t') l).
  destruct H as [H|H]; [|now apply IH]. injection H as -> ->. rewrite with_files_other by exact N1. apply put_same.
Qed.
(** Whatever was in the files does not matter. *)
Lemma with_files_over l : forall a b, (forall x, ~ In x (map fst l) -> a x = b x) -> same_disk (with_files a l) (with_files b l).
Proof.
  induction l as [|[n t] l IH]; intros a b H x; [apply H; intros []|]. cbn. change (fold_left (fun d f => put d (fst f) (snd f)) l (put ?d n t)) with (with_files (put d n t) l). apply IH.
  intros y Hy. destruct (list_eq_dec ascii_dec y n) as [->|Ny]; [now rewrite !put_same|]. rewrite !put_other by exact Ny. apply H. cbn. intuition.
Qed.

Definition ops_of (fs : list (text * list text)) : list file_op := concat (map (fun f => file_ops (fst f) (snd f)) fs).
Definition files_of (fs : list (text * list text)) : list (text * text) := map (fun f => (fst f, concat (snd f))) fs.
Lemma files_of_names fs : map fst (files_of fs) = map fst fs.
Proof. unfold files_of. rewrite map_map. reflexivity. Qed.

(** The whole program. *)
Lemma run_ops fs : forall d o, fs <> [] \/ o = None -> exists d', run (ops_of fs) (d, o) = (d', None) /\ same_disk d' (with_files d (files_of fs)).
Proof.
  induction fs as [|[n ps] fs IH]; intros d o H; [destruct H as [H| ->]; [congruence|]; exists d; split; [reflexivity|now intro]|].
  unfold ops_of. cbn [map concat fst snd]. rewrite run_app, run_file. destruct (IH (put (put d n []) n (concat ps)) None (or_intror eq_refl)) as (d' & E & S0). exists d'. split; [exact E|].
  intro x. rewrite S0. cbn [files_of map fst snd]. exact (with_files_ext (files_of fs) _ (put d n (concat ps)) (put_put d n [] (concat ps)) x).
Qed.

(** A first part of the operations of one file. *)
Lemma file_prefix n ps done todo : file_ops n ps = done ++ todo -> done = [] \/ todo = [] \/ exists ps1 ps2, ps = ps1 ++ ps2 /\ done = FOpen n :: map FWrite ps1.
Proof.
  unfold file_ops. destruct done as [|o done]; [auto|]. cbn [app]. intro E. injection E as <- E. right.
  revert done E. induction ps as [|p ps IH]; intros done E; cbn [map app] in E.
  - destruct done as [|o done]; [right; exists [], []; auto|]. cbn [app] in E. injection E as <- E. destruct done; [|discriminate]. cbn [app] in E. left. congruence.
  - destruct done as [|o done]; [right; exists [], (p :: ps); auto|]. cbn [app] in E. injection E as <- E. destruct (IH done E) as [H|(ps1 & ps2 & -> & H)]; [left; exact H|]. right. exists (p :: ps1), ps2. split; [reflexivity|]. cbn [map]. congruence.
Qed.

(** A program stopped at any point. *)
Lemma interrupted_ops fs d after : interrupted (ops_of fs) d after ->
  exists fs1 fs2, fs = fs1 ++ fs2 /\
    (same_disk after (with_files d (files_of fs1)) \/
     exists n ps rest t u, fs2 = (n, ps) :: rest /\ concat ps = t ++ u /\ same_disk after (put (with_files d (files_of fs1)) n t)).
Proof.
  revert d. induction fs as [|[n ps] fs IH]; intros d (done & todo & E & C).
  - destruct done; [|discriminate]. exists [], []. split; [reflexivity|]. left. cbn in C. inversion C; subst. now intro.
  - unfold ops_of in E. cbn [map concat fst snd] in E. fold (ops_of fs) in E.
    assert (Q : (exists r, done = file_ops n ps ++ r /\ ops_of fs = r ++ todo) \/ (exists r, file_ops n ps = done ++ r /\ r <> [])).
    { clear C IH. revert done E. generalize (file_ops n ps) as a. intro a. induction a as [|x a IHa]; intros done E.
      - left. exists done. auto.
      - destruct done as [|y done]; [right; exists (x :: a); split; [reflexivity|discriminate]|]. cbn [app] in E. injection E as <- E. destruct (IHa done E) as [(r & -> & H)|(r & -> & H)]; [left; exists r; auto|right; exists r; auto]. }
    destruct Q as [(r & -> & E2)|(r & E2 & Nr)].
    + rewrite run_app, run_file in C. destruct (IH (put (put d n []) n (concat ps)) (ex_intro _ r (ex_intro _ todo (conj E2 C)))) as (fs1 & fs2 & -> & H).
      exists ((n, ps) :: fs1), fs2. split; [reflexivity|].
      assert (S0 : same_disk (with_files (put (put d n []) n (concat ps)) (files_of fs1)) (with_files d (files_of ((n, ps) :: fs1)))) by (cbn; apply with_files_ext; intro y; apply put_put).
      destruct H as [H|(n' & ps' & rest & t & u & E3 & E4 & H)]; [left; intro x; rewrite H; apply S0|]. right. exists n', ps', rest, t, u. split; [exact E3|]. split; [exact E4|]. intro x. rewrite H. now apply put_ext.
    + exists [], ((n, ps) :: fs). split; [reflexivity|]. destruct (file_prefix n ps done r E2) as [->|[->|(ps1 & ps2 & -> & ->)]]; [|congruence|].
      * left. cbn in C. inversion C; subst. now intro.
      * right. change (FOpen n :: map FWrite ps1) with ([FOpen n] ++ map FWrite ps1) in C. rewrite run_app in C. change (run [FOpen n] (d, None)) with (put d n [], Some (n, @nil ascii)) in C. rewrite run_writes in C. cbn [app] in C.
        inversion C as [|? ? ? t rest Et]; subst. exists n, (ps1 ++ ps2), fs, t, (rest ++ concat ps2). split; [reflexivity|]. split; [rewrite concat_app, Et; now rewrite <- app_assoc|]. intro x. cbn. apply put_put.
Qed.

(** ** The operations of the program *)
Section Utf8.
  Let utf8 (t : text) := true.
  Lemma vertical_writes_ok z dzed v l : forall i cs, vertical_dist_cards z dzed v i l = Ok cs ->
    vertical_writes utf8 z dzed v i l = (map FWrite (map (fun c => fst c ++ snd c) cs), Ok tt).
  Proof.
    induction l as [|ab l IH]; intros i cs E; cbn [vertical_dist_cards vertical_writes] in *; [injection E as <-; reflexivity|].
    destruct (vertical_cards z dzed v i ab) as [c|e|]; try discriminate. cbn [bind] in *. destruct (vertical_dist_cards z dzed v (S i) l) as [cs'|e|] eqn:E2; try discriminate. cbn [bind] in E. injection E as <-.
    cbn [write]. unfold write, utf8. fold utf8. rewrite (IH (S i) cs' E2). reflexivity.
  Qed.
  Lemma ends_bound r ab : r <> [] -> In ab (ranges (z_ints r)) -> (Z.to_nat (snd ab) < length r)%nat.
  Proof.
    intros N H. assert (B : forall l i, Forall (fun k => (k < i + length l)%nat) (changes_from i l)).
    { induction l as [|a l IH]; intro i; [constructor|]. destruct l as [|b l]; [constructor|]. cbn [changes_from]. specialize (IH (S i)). cbn [length] in *. destruct (Reqb b a); [|constructor; [lia|]]; eapply Forall_impl; [|exact IH| |exact IH]; cbv beta; intros; lia. }
    assert (G : forall l, Forall (fun k => (Z.to_nat k < length r)%nat) (tl l) -> Forall (fun ab => (Z.to_nat (snd ab) < length r)%nat) (ranges l)).
    { induction l as [|a l IH]; intro F; [constructor|]. destruct l as [|b l]; [constructor|]. cbn [ranges tl] in *. inversion F as [|? ? F1 F2]; subst. constructor; [exact F1|]. apply IH. exact F2. }
    specialize (G (z_ints r)). revert ab H. apply Forall_forall. apply G. unfold z_ints. cbn [app tl]. assert (P : (0 < length r)%nat) by (destruct r; [congruence|cbn; lia]).
    apply Forall_app. split; [|constructor; [lia|constructor]]. apply Forall_forall. intros k Hk. apply in_map_iff in Hk. destruct Hk as (m & <- & Hm). specialize (B r 0%nat). rewrite Forall_forall in B. specialize (B m Hm). lia.
  Qed.
  Lemma show_nat_nonempty n : (1 <= length (show_nat n))%nat.
  Proof. destruct (show_nat_chars n) as [_ N]. destruct (show_nat n); [congruence|cbn; lia]. Qed.
  Lemma vertical_total z dzed v l : Forall (fun ab => (Z.to_nat (snd ab) < length z)%nat) l -> forall i, exists cs, vertical_dist_cards z dzed v i l = Ok cs.
  Proof.
    induction 1 as [|ab l Hab _ IH]; intro i; [exists []; reflexivity|]. cbn [vertical_dist_cards]. unfold vertical_cards. destruct (nth_error z (Z.to_nat (snd ab))) as [x|] eqn:E; [|apply nth_error_None in E; lia].
    cbn [bind]. pose proof (show_nat_nonempty (i + 5)) as P.
    match goal with |- context [text_wrap ?a ?b ?c ?e] => destruct (text_wrap_any a b c e ltac:(lia) ltac:(lia)) as (t1 & E1 & _) end. rewrite E1. cbn [bind].
    match goal with |- context [text_wrap ?a ?b ?c ?e] => destruct (text_wrap_any a b c e ltac:(lia) ltac:(lia)) as (t2 & E2 & _) end. rewrite E2. cbn [bind].
    destruct (IH (S i)) as (cs & ->). cbn [bind]. eauto.
  Qed.
  (** The operations are those of the files written. *)
  Lemma write_ops_files d cit stub r z h temps st : length z = length r ->
    exists fs, fst (write_ops utf8 d cit stub r z h temps st) = ops_of fs /\ fst (write_files d cit stub r z h temps st) = files_of fs /\
      snd (write_ops utf8 d cit stub r z h temps st) = snd (write_files d cit stub r z h temps st).
  Proof.
    intro L. induction st as [|[reac v] st IH]; [exists []; repeat split|]. cbn [write_ops write_files]. destruct (is_neutronic reac) eqn:Hn; [|exact IH].
    unfold channel_ops, file_content. rewrite file_name_ok by exact Hn. cbn [bind].
    destruct (sdef_header d cit reac v temps) as [[header w]|e|]; cbn [bind]; [|exists []; repeat split..].
    destruct (r_bounds r (h / 2) h) as [bounds|e|] eqn:Eb; cbn [bind]; [|exists []; repeat split..].
    destruct (si3_card bounds) as [si|e|]; cbn [bind]; [|exists []; repeat split..].
    destruct (sp3_card v (z_ints r)) as [sp|e|]; cbn [bind]; [|exists []; repeat split..].
    destruct (ds4_card (length bounds)) as [ds|e|]; cbn [bind]; [|exists []; repeat split..].
    assert (Nr : r <> []) by (intros ->; discriminate Eb).
    destruct (vertical_total z (h / 2) v (ranges (z_ints r))) with (i := 0%nat) as (cs & Ec).
    { apply Forall_forall. intros ab Hab. rewrite L. now apply (ends_bound r ab Nr). }
    rewrite Ec. cbn [bind]. unfold write at 1. replace (utf8 _) with true by reflexivity. rewrite (vertical_writes_ok _ _ _ _ _ _ Ec). cbn [bind].
    destruct IH as (fs & E1 & E2 & E3). destruct (write_ops utf8 d cit stub r z h temps st) as [ops out], (write_files d cit stub r z h temps st) as [files out']. cbn [fst snd] in *. subst ops files out'.
    exists ((name_of stub reac, (header ++ si ++ sp ++ ds ++ line (txt "C") ++ line (txt "C 3. Neutron Emission Probability - Vertical Distribution") ++ line (txt "C")) :: map (fun c => fst c ++ snd c) cs) :: fs).
    split; [|split; [|destruct out; reflexivity]].
    - destruct out; cbn [fst]; unfold ops_of, file_ops; cbn [map concat fst snd app]; rewrite <- ?app_assoc; reflexivity.
    - cbn [files_of map fst snd concat]. do 2 f_equal. now rewrite <- !app_assoc.
  Qed.
End Utf8.
