(** C94: which lines of a cross-section file are used. *)
From Coq Require Import Reals ZArith List Lia Lra Permutation Sorting.Sorted.
From Verif Require Import Base Profile ProfileProofs XsData Reactivity ReactivityProofs SpecReadXs.
Import ListNotations.
Open Scope R_scope.

Lemma drop_header h l : comments h -> drop_comments (h ++ l) = drop_comments l.
Proof. induction 1 as [|x h -> H IH]; [reflexivity|exact IH]. Qed.
Lemma rows_app a b : rows_of (a ++ b) = rows_of a ++ rows_of b.
Proof. induction a as [|[|e s|] a IH]; cbn [app rows_of]; [reflexivity|exact IH|now rewrite IH|exact IH]. Qed.
Lemma rows_comments t : comments t -> rows_of t = [].
Proof. induction 1 as [|x t -> H IH]; [reflexivity|exact IH]. Qed.
Lemma invalid_app a b i : invalid_of i (a ++ b) = invalid_of i a ++ invalid_of (i + Z.of_nat (length a)) b.
Proof.
  revert i. induction a as [|x a IH]; intro i; [cbn; now rewrite Z.add_0_r|]. cbn [length app].
  replace (i + Z.of_nat (S (length a)))%Z with (i + 1 + Z.of_nat (length a))%Z by lia. destruct x; cbn [invalid_of]; now rewrite IH.
Qed.
Lemma invalid_comments t i : comments t -> invalid_of i t = [].
Proof. intro H. revert i. induction H as [|x t -> H IH]; intro i; [reflexivity|apply IH]. Qed.
Lemma invalid_range l i j : In j (invalid_of i l) -> (i < j <= i + Z.of_nat (length l))%Z.
Proof.
  revert i. induction l as [|x l IH]; intros i H; [destruct H|]. cbn [length].
  destruct x; cbn [invalid_of] in H; [specialize (IH _ H); lia|specialize (IH _ H); lia|destruct H as [<-|H]; [lia|specialize (IH _ H); lia]].
Qed.
Lemma counts l i : ~ In Comment l -> (length (rows_of l) + length (invalid_of i l) = length l)%nat.
Proof.
  revert i. induction l as [|x l IH]; intros i H; [reflexivity|]. assert (H' : ~ In Comment l) by (intro; apply H; now right).
  specialize (IH (i + 1)%Z H'). destruct x; cbn [rows_of invalid_of length]; [destruct H; now left|lia|lia].
Qed.
Lemma no_bad l i : ~ In Bad l -> invalid_of i l = [].
Proof. revert i. induction l as [|x l IH]; intros i H; [reflexivity|]. destruct x; cbn [invalid_of]; [apply IH|apply IH|destruct H; now left]; intro; apply H; now right. Qed.
Lemma bad_invalid l i : In Bad l -> invalid_of i l <> [].
Proof. revert i. induction l as [|x l IH]; intros i H; [destruct H|]. destruct x; cbn [invalid_of]; [destruct H as [H|H]; [discriminate|now apply IH]..|discriminate]. Qed.
Lemma rows_map rows : rows_of (map row rows) = rows.
Proof. induction rows as [|[e s] l IH]; [reflexivity|]. cbn. now rewrite IH. Qed.
Lemma filter_all {A} (f : A -> bool) l : (forall x, In x l -> f x = true) -> filter f l = l.
Proof. induction l as [|x l IH]; intro H; [reflexivity|]. cbn. rewrite (H x) by now left. f_equal. apply IH. intros; apply H; now right. Qed.
Lemma filter_none {A} (f : A -> bool) l : (forall x, In x l -> f x = false) -> filter f l = [].
Proof. induction l as [|x l IH]; intro H; [reflexivity|]. cbn. rewrite (H x) by now left. apply IH. intros; apply H; now right. Qed.

(** What is read: the lines before the footer, if all of them are rows. *)
Lemma reads header body trailer : comments header -> comments trailer -> data_block body ->
  genfromtxt (text_file header body trailer) 2 =
    if Nat.eqb (length (invalid_of 0 (before_footer body))) 0 then Ok (rows_of (before_footer body)) else Err EValue.
Proof.
  intros Hh Ht (Hc & e & s & r & Eb). unfold genfromtxt, text_file. rewrite drop_header by exact Hh.
  assert (D : drop_comments (body ++ trailer) = body ++ trailer) by (rewrite Eb; reflexivity). rewrite D, rows_app, (rows_comments _ Ht), app_nil_r, invalid_app, (invalid_comments trailer _ Ht), app_nil_r.
  pose proof (counts body 0 Hc) as Cn. replace (Z.of_nat (length (rows_of body)) + Z.of_nat (length (invalid_of 0 body)) - 2)%Z with (Z.of_nat (length body) - 2)%Z by lia.
  destruct (le_lt_dec 2 (length body)) as [L|L].
  - set (A := before_footer body). set (B := skipn (length body - 2) body).
    assert (AB : body = A ++ B) by (symmetry; apply firstn_skipn). assert (LA : length A = (length body - 2)%nat) by (apply firstn_length_le; lia).
    assert (F : filter (fun i => Z.ltb (Z.of_nat (length body) - 2) i) (invalid_of 0 body) = invalid_of (Z.of_nat (length A)) B).
    { replace (invalid_of 0 body) with (invalid_of 0 (A ++ B)) by (now rewrite <- AB). rewrite invalid_app, filter_app, Z.add_0_l. rewrite filter_none, filter_all; [reflexivity| |].
      - intros j Hj. apply invalid_range in Hj. apply Z.ltb_lt. lia.
      - intros j Hj. apply invalid_range in Hj. apply Z.ltb_ge. lia. }
    rewrite F. assert (Li : length (invalid_of 0 body) = (length (invalid_of 0 A) + length (invalid_of (Z.of_nat (length A)) B))%nat) by (replace (invalid_of 0 body) with (invalid_of 0 (A ++ B)) by (now rewrite <- AB); rewrite invalid_app, app_length, Z.add_0_l; reflexivity).
    rewrite Li. destruct (Nat.eqb_spec (length (invalid_of 0 A)) 0) as [Z0|N0].
    + rewrite Z0. cbn [plus]. rewrite Nat.ltb_irrefl. f_equal. replace (rows_of body) with (rows_of (A ++ B)) by (now rewrite <- AB). rewrite rows_app.
      assert (CB : (length (rows_of B) + length (invalid_of (Z.of_nat (length A)) B) = 2)%nat).
      { rewrite counts; [|intro H; apply Hc; rewrite AB; apply in_or_app; now right]. unfold B. rewrite skipn_length. lia. }
      replace (length (rows_of A ++ rows_of B) - Z.to_nat (2 - Z.of_nat (length (invalid_of (Z.of_nat (length A)) B))))%nat with (length (rows_of A) + 0)%nat by (rewrite app_length; lia).
      rewrite firstn_app_2. cbn. apply app_nil_r.
    + assert (Q : Nat.ltb (length (invalid_of (Z.of_nat (length A)) B)) (length (invalid_of 0 A) + length (invalid_of (Z.of_nat (length A)) B)) = true) by (apply Nat.ltb_lt; lia). now rewrite Q.
  - rewrite Eb in L |- *. destruct r; [reflexivity|cbn in L; lia].
Qed.

(** C94: for any number of comment lines around them, the lines of a cross-section file are used as follows. If all but the last two have two columns, the
    cross section is interpolated between exactly these, in order of energy; a line with another number of columns before the last two makes the reading fail with
    ValueError, as does a file with no more than two lines. *)
Theorem C94_rows_used : forall u header body trailer rows m1 m2, 0 < m1 -> 0 < m2 -> comments header -> comments trailer -> data_block body ->
  before_footer body = map row rows -> rows <> [] ->
  exists xs, make_xs u (text_file header body trailer) m1 m2 = Ok xs /\
    Permutation (xs_tab xs) (map (knot m1 m2) rows) /\ StronglySorted (fun p q => fst p <= fst q) (xs_tab xs) /\
    reduced_mass xs = m1 * m2 / (m1 + m2) * amu_kg u.
Proof.
  intros u header body trailer rows m1 m2 H1 H2 Hh Ht Hb E N. unfold make_xs. rewrite reads by assumption. rewrite E, rows_map.
  rewrite no_bad by (intro H; apply in_map_iff in H; destruct H as (? & Q & _); discriminate Q). cbn [length Nat.eqb bind].
  rewrite !np_div_ok by lra. cbn [bind]. destruct rows as [|r0 rows]; [contradiction|].
  eexists. split; [reflexivity|]. cbn [xs_tab reduced_mass].
  assert (K : map (fun p : Z * Z => (IZR (fst p) / 10 ^ 9 * (m2 / (m1 + m2)) * 1e3, IZR (snd p) / 10 ^ 43 * 1e-28)) (r0 :: rows) = map (knot m1 m2) (r0 :: rows)).
  { apply map_ext. intro p. unfold knot. f_equal. lra. }
  rewrite K. split; [|split; [|reflexivity]].
  - apply sort_pairs_perm.
  - apply sort_pairs_sorted.
Qed.
Print Assumptions C94_rows_used.
Theorem C94_bad_line : forall u header body trailer m1 m2, comments header -> comments trailer -> data_block body ->
  0 < m1 -> 0 < m2 -> In Bad (before_footer body) \/ (length body <= 2)%nat -> make_xs u (text_file header body trailer) m1 m2 = Err EValue.
Proof.
  intros u header body trailer m1 m2 Hh Ht Hb H1 H2 H. unfold make_xs. rewrite reads by assumption. destruct H as [H|H].
  - pose proof (bad_invalid _ 0 H) as N. destruct (invalid_of 0 (before_footer body)); [contradiction|reflexivity].
  - unfold before_footer. replace (length body - 2)%nat with 0%nat by lia. cbn [firstn invalid_of length Nat.eqb rows_of bind]. rewrite !np_div_ok by lra. reflexivity.
Qed.
Print Assumptions C94_bad_line.

(** The five shipped files are of this form: their last row is taken for a part of the footer. *)
Example C94_shipped : forall r, exists header body trailer rows last, file r = text_file header body trailer /\ comments header /\ comments trailer /\ data_block body /\
  body = map row (rows ++ [last]) ++ [Bad] /\ before_footer body = map row rows /\ rows <> [].
Proof.
  intro r. set (n := length (file r)). exists (firstn 11 (file r)), (firstn (n - 12) (skipn 11 (file r))), (skipn (n - 12) (skipn 11 (file r))), (removelast (rows_of (file r))), (last (rows_of (file r)) (0, 0)%Z).
  assert (E : file r = text_file (firstn 11 (file r)) (firstn (n - 12) (skipn 11 (file r))) (skipn (n - 12) (skipn 11 (file r)))) by (unfold text_file; now rewrite !firstn_skipn).
  split; [exact E|]. assert (C : forall l, forallb (fun x => match x with Comment => true | _ => false end) l = true -> comments l).
  { intros l H. apply Forall_forall. rewrite forallb_forall in H. intros x Hx. specialize (H x Hx). now destruct x. }
  split; [apply C; destruct r; vm_compute; reflexivity|]. split; [apply C; destruct r; vm_compute; reflexivity|].
  split; [|split; [destruct r; vm_compute; reflexivity|split; [destruct r; vm_compute; reflexivity|destruct r; vm_compute; discriminate]]].
  split.
  - intro H. assert (Q : forallb (fun x => match x with Comment => false | _ => true end) (firstn (n - 12) (skipn 11 (file r))) = true) by (destruct r; vm_compute; reflexivity).
    rewrite forallb_forall in Q. specialize (Q _ H). discriminate Q.
  - destruct r; do 3 eexists; vm_compute; reflexivity.
Qed.
Example C94_bad_example : data_block [Row 1 1; Bad; Row 2 1; Row 3 1] /\ In Bad (before_footer [Row 1 1; Bad; Row 2 1; Row 3 1]).
Proof. split; [split; [cbn; intuition discriminate|eauto]|cbn; auto]. Qed.
