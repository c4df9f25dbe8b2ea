(** Lemmas about the profile model. *)
From Coq Require Import Sorted Permutation.
From Verif Require Import Base Profile SpecProfile.

Definition ltx (p q : R * R) : Prop := fst p < fst q.
Definition lex (p q : R * R) : Prop := fst p <= fst q.

(** ** Sorting *)
Lemma insert_pair_perm p l : Permutation (insert_pair p l) (p :: l).
Proof.
  induction l as [|q l IH]; cbn; [reflexivity|].
  destruct (Rleb (fst q) (fst p)); [|reflexivity].
  rewrite IH; apply perm_swap.
Qed.
Lemma sort_pairs_perm_acc l acc :
  Permutation (fold_left (fun acc p => insert_pair p acc) l acc) (l ++ acc).
Proof.
  revert acc; induction l as [|p l IH]; intro acc; cbn; [reflexivity|].
  rewrite IH, insert_pair_perm. symmetry; apply Permutation_middle.
Qed.
Lemma sort_pairs_perm l : Permutation (sort_pairs l) l.
Proof. unfold sort_pairs; rewrite sort_pairs_perm_acc, app_nil_r; reflexivity. Qed.

Lemma insert_pair_sorted p l : StronglySorted lex l -> StronglySorted lex (insert_pair p l).
Proof.
  induction 1 as [|q l Hs IH Hq]; cbn; [repeat constructor|].
  destruct (Rleb_spec (fst q) (fst p)) as [Hle|Hgt].
  - constructor; [exact IH|]. apply (Permutation_Forall (Permutation_sym (insert_pair_perm p l))).
    constructor; [exact Hle|exact Hq].
  - constructor; [constructor; assumption|]. constructor; [unfold lex; lra|].
    eapply Forall_impl; [|exact Hq]; unfold lex; intros; lra.
Qed.
Lemma sort_pairs_sorted l : StronglySorted lex (sort_pairs l).
Proof.
  unfold sort_pairs. assert (H : StronglySorted lex []) by constructor. revert H.
  generalize (@nil (R * R)) as acc. induction l as [|p l IH]; intros acc H; cbn; [exact H|].
  apply IH, insert_pair_sorted, H.
Qed.
Lemma sorted_distinct l : StronglySorted lex l -> NoDup (map fst l) -> StronglySorted ltx l.
Proof.
  induction 1 as [|p l Hs IH Hp]; cbn; intro Hd; [constructor|]. inversion Hd as [|? ? Hni Hd']; subst.
  constructor; [auto|]. apply Forall_forall; intros q Hq. rewrite Forall_forall in Hp.
  specialize (Hp q Hq). unfold lex in Hp; unfold ltx.
  assert (fst p <> fst q) by (intro E; apply Hni; rewrite E; now apply in_map). lra.
Qed.
Lemma sort_pairs_strict l : distinct_radii l -> StronglySorted ltx (sort_pairs l).
Proof.
  intro H. apply sorted_distinct; [apply sort_pairs_sorted|].
  eapply Permutation_NoDup; [|exact H]. apply Permutation_map, Permutation_sym, sort_pairs_perm.
Qed.
Lemma sorted_perm_eq l l' :
  StronglySorted ltx l -> StronglySorted ltx l' -> Permutation l l' -> l = l'.
Proof.
  intro H; revert l'; induction H as [|p l Hs IH Hp]; intros l' H' HP.
  - now apply Permutation_nil in HP.
  - destruct l' as [|q l']; [apply Permutation_sym, Permutation_nil in HP; discriminate|].
    inversion H' as [|? ? Hs' Hq]; subst.
    assert (p = q).
    { assert (In p (q :: l')) as [|Hi] by (eapply Permutation_in; [exact HP|now left]); [congruence|].
      assert (In q (p :: l)) as [|Hj] by (eapply Permutation_in; [apply Permutation_sym, HP|now left]); [congruence|].
      rewrite Forall_forall in Hp, Hq. specialize (Hp q Hj); specialize (Hq p Hi). unfold ltx in *; lra. }
    subst q. f_equal. apply IH; [exact Hs'|]. now apply Permutation_cons_inv in HP.
Qed.

(** ** np.interp *)
Definition line (p q : R * R) (v : R) : R :=
  snd p + (snd q - snd p) * ((v - fst p) / (fst q - fst p)).

Lemma last_x_in x0 y0 rest : exists y, In (last_x x0 rest, y) ((x0, y0) :: rest).
Proof.
  revert x0 y0; induction rest as [|[x1 y1] r IH]; intros x0 y0; cbn [last_x]; [exists y0; now left|].
  destruct (IH x1 y1) as [y Hy]; exists y; now right.
Qed.
Lemma last_x_max x0 y0 rest : StronglySorted ltx ((x0, y0) :: rest) ->
  forall p, In p ((x0, y0) :: rest) -> fst p <= last_x x0 rest.
Proof.
  revert x0 y0; induction rest as [|[x1 y1] r IH]; intros x0 y0 Hs p Hp; cbn [last_x].
  - destruct Hp as [<-|[]]; cbn; lra.
  - inversion Hs as [|? ? Hs' Hf]; subst. destruct Hp as [<-|Hp]; [|eapply IH; eauto].
    cbn. apply Rle_trans with x1.
    + inversion Hf as [|? ? Hlt]; subst; unfold ltx in Hlt; cbn in Hlt; lra.
    + apply (IH x1 y1 Hs' (x1, y1)); now left.
Qed.

Lemma interp_char x0 y0 rest v :
  StronglySorted ltx ((x0, y0) :: rest) -> x0 <= v <= last_x x0 rest ->
  (exists y, In (v, y) ((x0, y0) :: rest) /\ interp_from x0 y0 rest v = y) \/
  (exists p q, neighbours ((x0, y0) :: rest) p q /\ fst p < v < fst q /\
               interp_from x0 y0 rest v = line p q v).
Proof.
  revert x0 y0; induction rest as [|[x1 y1] r IH]; intros x0 y0 Hs [H1 H2].
  - cbn in *. assert (x0 = v) by lra; subst. left; exists y0; auto.
  - cbn [interp_from last_x] in *. inversion Hs as [|? ? Hs' Hf]; subst.
    destruct (Rleb_spec x1 v) as [Hv|Hv].
    + destruct (IH x1 y1 Hs' (conj Hv H2)) as [(y & Hy & E)|(p & q & (Hp & Hq & Hpq & Hn) & Hv' & E)].
      * left; exists y; split; [now right|exact E].
      * right; exists p, q; repeat split; try tauto; try (now right).
        intros r0 [<-|Hr]; [|now apply Hn]. rewrite Forall_forall in Hf.
        specialize (Hf p Hp). unfold ltx in Hf; cbn in Hf |- *. lra.
    + inversion Hf as [|? ? Hlt Hf']; subst. unfold ltx in Hlt; cbn in Hlt.
      destruct (Req_dec x0 v) as [->|Hne].
      * left; exists y0; split; [now left|]. ring.
      * right; exists (x0, y0), (x1, y1). repeat split; cbn; try lra; try tauto.
        -- intros r0 [<-|[<-|Hr]]; cbn; try lra.
           inversion Hs' as [|? ? _ Hf1]; subst. rewrite Forall_forall in Hf1.
           specialize (Hf1 r0 Hr). unfold ltx in Hf1; cbn in Hf1. lra.
        -- unfold line; cbn. field. lra.
Qed.

Lemma strict_in_eq l p q : StronglySorted ltx l -> In p l -> In q l -> fst p = fst q -> p = q.
Proof.
  induction 1 as [|r l Hs IH Hr]; intros Hp Hq E; [destruct Hp|].
  rewrite Forall_forall in Hr.
  destruct Hp as [<-|Hp], Hq as [<-|Hq]; auto.
  - specialize (Hr q Hq); unfold ltx in Hr; lra.
  - specialize (Hr p Hp); unfold ltx in Hr; lra.
Qed.

(** What an interpolator built from table [t] returns. *)
Inductive interp_result (t : list (R * R)) (v : R) : res R -> Prop :=
| ir_node y : In (v, y) t -> interp_result t v (Ok y)
| ir_line p q : neighbours t p q -> fst p < v < fst q -> interp_result t v (Ok (line p q v))
| ir_low : (forall p, In p t -> v < fst p) -> interp_result t v (Err EValue)
| ir_high : (forall p, In p t -> fst p < v) -> interp_result t v (Err EValue).

Lemma interp1d_call_char t v : StronglySorted ltx t -> interp_result t v (interp1d_call t v).
Proof.
  intro Hs. destruct t as [|[x0 y0] rest]; cbn [interp1d_call].
  - apply ir_low; intros p [].
  - destruct (Rltb_spec v x0) as [H1|H1].
    + apply ir_low. intros p [<-|Hp]; [exact H1|]. inversion Hs as [|? ? _ Hf]; subst.
      rewrite Forall_forall in Hf. specialize (Hf p Hp). unfold ltx in Hf; cbn in Hf; lra.
    + destruct (Rltb_spec (last_x x0 rest) v) as [H2|H2].
      * apply ir_high. intros p Hp. pose proof (last_x_max x0 y0 rest Hs p Hp). lra.
      * assert (Hb : x0 <= v <= last_x x0 rest) by lra.
        destruct (interp_char x0 y0 rest v Hs Hb) as [(y & Hy & E)|(p & q & Hn & Hv & E)];
        rewrite E; econstructor; eassumption.
Qed.

Lemma neighbours_perm t t' p q : Permutation t t' -> neighbours t p q -> neighbours t' p q.
Proof.
  intros HP (H1 & H2 & H3 & H4). repeat split; auto; try (eapply Permutation_in; eassumption).
  intros r Hr. apply H4. eapply Permutation_in; [apply Permutation_sym, HP|exact Hr].
Qed.
Lemma interp_result_perm t t' v r : Permutation t t' -> interp_result t v r -> interp_result t' v r.
Proof.
  intros HP H; inversion H as [y Hy|p q Hn Hv|Hl|Hh]; subst.
  - apply ir_node. eapply Permutation_in; eassumption.
  - apply ir_line; [eapply neighbours_perm; eassumption|assumption].
  - apply ir_low; intros p Hp; apply Hl. eapply Permutation_in; [apply Permutation_sym, HP|exact Hp].
  - apply ir_high; intros p Hp; apply Hh. eapply Permutation_in; [apply Permutation_sym, HP|exact Hp].
Qed.

Lemma distinct_in_eq t p q : distinct_radii t -> In p t -> In q t -> fst p = fst q -> p = q.
Proof.
  intros Hd Hp Hq E. apply (strict_in_eq (sort_pairs t)); [now apply sort_pairs_strict| | |exact E];
  (eapply Permutation_in; [apply Permutation_sym, sort_pairs_perm|assumption]).
Qed.

(** The data profile built from a table of rows. *)
Definition rows_profile (t : list (R * R)) : res profile := data_profile (map snd t) (map fst t) 1.

Lemma combine_map_fst_snd (t : list (R * R)) : combine (map fst t) (map snd t) = t.
Proof. induction t as [|[a b] t IH]; cbn; congruence. Qed.
Lemma rows_profile_ok t : t <> [] -> rows_profile t = Ok (PData (sort_pairs t) 1).
Proof.
  intro H; unfold rows_profile, data_profile. rewrite !map_length, Nat.eqb_refl.
  destruct t as [|p t]; [congruence|]. cbn [map]. rewrite <- (combine_map_fst_snd (p :: t)). reflexivity.
Qed.

Lemma clamp_clip x : clamp01 x = clip 0 1 x. Proof. reflexivity. Qed.

Lemma data_value_char t rho : distinct_radii t ->
  interp_result t (clamp01 rho) (value (PData (sort_pairs t) 1) rho).
Proof.
  intro Hd. cbn [value]. change (clip 0 1 rho) with (clamp01 rho).
  assert (H : interp_result t (clamp01 rho) (interp1d_call (sort_pairs t) (clamp01 rho))).
  { eapply interp_result_perm; [apply sort_pairs_perm|]. now apply interp1d_call_char, sort_pairs_strict. }
  destruct (interp1d_call (sort_pairs t) (clamp01 rho)); cbn; try exact H. rewrite Rmult_1_l; exact H.
Qed.

(** Properties that follow from the characterisation alone. *)
Section FromChar.
  Variable t : list (R * R).
  Hypothesis Hd : distinct_radii t.

  Lemma ir_at_node v y r : In (v, y) t -> interp_result t v r -> r = Ok y.
  Proof.
    intros Hi H; inversion H as [y' Hy|p q (Hp & Hq & _ & Hn) Hv|Hl|Hh]; subst.
    - now assert ((v, y) = (v, y')) as [= ->] by (apply (distinct_in_eq t); auto).
    - exfalso; apply (Hn _ Hi); cbn; lra.
    - specialize (Hl _ Hi); cbn in Hl; lra.
    - specialize (Hh _ Hi); cbn in Hh; lra.
  Qed.
  Lemma ir_between p q v r : neighbours t p q -> fst p < v < fst q -> interp_result t v r -> r = Ok (line p q v).
  Proof.
    intros (Hp & Hq & Hpq & Hn) Hv H; inversion H as [y' Hy|p' q' (Hp' & Hq' & Hpq' & Hn') Hv'|Hl|Hh]; subst.
    - exfalso; apply (Hn _ Hy); cbn; lra.
    - assert (p = p').
      { apply (distinct_in_eq t); auto.
        destruct (Rtotal_order (fst p) (fst p')) as [h|[h|h]]; [|exact h|];
        exfalso; [apply (Hn _ Hp')|apply (Hn' _ Hp)]; lra. }
      assert (q = q').
      { apply (distinct_in_eq t); auto.
        destruct (Rtotal_order (fst q) (fst q')) as [h|[h|h]]; [|exact h|];
        exfalso; [apply (Hn' _ Hq)|apply (Hn _ Hq')]; lra. }
      subst; reflexivity.
    - specialize (Hl _ Hp); lra.
    - specialize (Hh _ Hq); lra.
  Qed.
  Lemma ir_error v r : interp_result t v r -> (r = Err EValue <-> ~ inside_table t v).
  Proof.
    intro H; inversion H as [y Hy|p q (Hp & Hq & _) Hv|Hl|Hh]; subst; split; try discriminate; auto.
    - intro Hn; exfalso; apply Hn; split; exists (v, y); cbn; split; auto; lra.
    - intro Hn; exfalso; apply Hn; split; [exists p|exists q]; split; auto; lra.
    - intros _ [[p [Hp Hle]] _]. specialize (Hl _ Hp); lra.
    - intros _ [_ [p [Hp Hle]]]. specialize (Hh _ Hp); lra.
  Qed.
  Lemma ir_ok_or_error v r : interp_result t v r -> r = Err EValue \/ exists y, r = Ok y.
  Proof. intro H; inversion H; subst; eauto. Qed.

  Lemma line_between p q v : fst p < v < fst q ->
    Rmin (snd p) (snd q) <= line p q v <= Rmax (snd p) (snd q).
  Proof.
    intro Hv. unfold line. set (u := (v - fst p) / (fst q - fst p)).
    assert (Hu : 0 <= u <= 1).
    { unfold u; split.
      - apply Rmult_le_pos; [lra|]. left; apply Rinv_0_lt_compat; lra.
      - apply Rmult_le_reg_r with (fst q - fst p); [lra|].
        unfold Rdiv; rewrite Rmult_assoc, Rinv_l; lra. }
    unfold Rmin, Rmax; destruct Rle_dec; nra.
  Qed.

  Lemma ir_bounds v y : interp_result t v (Ok y) ->
    (exists p, In p t /\ snd p <= y) /\ (exists q, In q t /\ y <= snd q).
  Proof.
    intro H; inversion H as [y' Hy|p q (Hp & Hq & _) Hv E|Hl|Hh]; subst.
    - split; exists (v, y); cbn; split; auto; lra.
    - pose proof (line_between p q v Hv) as [H1 H2].
      split.
      + revert H1; unfold Rmin; destruct Rle_dec; intro; [exists p|exists q]; auto.
      + revert H2; unfold Rmax; destruct Rle_dec; intro; [exists q|exists p]; auto.
  Qed.

  Lemma line_mono p q v w : fst p < fst q -> snd p <= snd q -> v <= w -> line p q v <= line p q w.
  Proof.
    intros H1 H2 H3. unfold line.
    assert ((v - fst p) / (fst q - fst p) <= (w - fst p) / (fst q - fst p)).
    { apply Rmult_le_compat_r; [left; apply Rinv_0_lt_compat; lra|lra]. }
    nra.
  Qed.

  Lemma ir_monotone v w y z : table_monotone t -> v <= w ->
    interp_result t v (Ok y) -> interp_result t w (Ok z) -> y <= z.
  Proof.
    intros Hm Hvw H1 H2.
    assert (Hm' : forall p q, In p t -> In q t -> fst p <= fst q -> snd p <= snd q).
    { intros [a b] [c d]; apply Hm. }
    inversion H1 as [y' Hy|p q Hpq Hv E1| |]; subst; inversion H2 as [z' Hz|p' q' Hpq' Hw E2| |]; subst.
    - apply (Hm' (v, y) (w, z)); auto.
    - destruct Hpq' as (Hp' & Hq' & _ & Hn').
      assert (snd p' <= line p' q' w).
      { destruct (line_between p' q' w Hw) as [L _].
        rewrite Rmin_left in L; [exact L|]. apply Hm'; auto; lra. }
      apply Rle_trans with (snd p'); [|assumption].
      apply (Hm' (v, y) p'); auto; cbn.
      destruct (Rle_lt_dec v (fst p')); [assumption|]. exfalso; apply (Hn' _ Hy); cbn; lra.
    - destruct Hpq as (Hp & Hq & _ & Hn).
      assert (line p q v <= snd q).
      { destruct (line_between p q v Hv) as [_ L].
        rewrite Rmax_right in L; [exact L|]. apply Hm'; auto; lra. }
      apply Rle_trans with (snd q); [assumption|].
      apply (Hm' q (w, z)); auto; cbn.
      destruct (Rle_lt_dec (fst q) w); [assumption|]. exfalso; apply (Hn _ Hz); cbn; lra.
    - destruct (Rlt_le_dec w (fst q)) as [Hwq|Hwq].
      + (* same interval *)
        assert (Ok (line p' q' w) = Ok (line p q w)) as [= E].
        { eapply ir_between; eauto. lra. }
        rewrite E. destruct Hpq as (Hp & Hq & Hpq & _).
        apply line_mono; auto. apply Hm'; auto; lra.
      + destruct Hpq as (Hp & Hq & Hpq & Hn), Hpq' as (Hp' & Hq' & Hpq' & Hn').
        assert (line p q v <= snd q).
        { destruct (line_between p q v Hv) as [_ L].
          rewrite Rmax_right in L; [exact L|]. apply Hm'; auto; lra. }
        assert (snd p' <= line p' q' w).
        { destruct (line_between p' q' w Hw) as [L _].
          rewrite Rmin_left in L; [exact L|]. apply Hm'; auto; lra. }
        assert (snd q <= snd p').
        { apply Hm'; auto. destruct (Rle_lt_dec (fst q) (fst p')); [assumption|].
          exfalso; apply (Hn' _ Hq). split; [assumption|].
          destruct (Rlt_le_dec (fst q) (fst q')); [assumption|]. lra. }
        lra.
  Qed.
End FromChar.

(** ** Scaling and clamping *)
Lemma value_clamp p rho : value p rho = value p (clamp01 rho).
Proof.
  rewrite clamp_clip. destruct p; cbn [value]; rewrite clip_clip by lra; reflexivity.
Qed.

Lemma value_set_scale p s rho : value (set_scale s p) rho = res_map (Rmult s) (value p rho).
Proof.
  destruct p; cbn [value set_scale]; unfold res_map.
  - destruct (interp1d_call tab (clip 0 1 rho)); cbn; [f_equal; ring|reflexivity|reflexivity].
  - destruct (np_pow (Rabs (clip 0 1 rho)) beta); cbn; [|reflexivity|reflexivity].
    match goal with |- context [np_pow ?x alpha] => destruct (np_pow x alpha) end; cbn;
    [f_equal; ring|reflexivity|reflexivity].
  - match goal with |- context [bind (if ?b then ?x else ?y) _] => destruct (if b then x else y) end; cbn;
    [f_equal; ring|reflexivity|reflexivity].
Qed.

Lemma res_map_comp {A B C} (f : A -> B) (g : B -> C) x : res_map g (res_map f x) = res_map (fun a => g (f a)) x.
Proof. destruct x; reflexivity. Qed.
Lemma res_map_ext {A B} (f g : A -> B) x : (forall a, f a = g a) -> res_map f x = res_map g x.
Proof. intro H; destruct x; unfold res_map; cbn; congruence. Qed.

Lemma value_set_scales ss p rho :
  value (fold_left (fun q s => set_scale s q) ss p) rho = res_map (Rmult (product ss)) (value p rho).
Proof.
  revert p; induction ss as [|s ss IH]; intro p; cbn [fold_left product fold_right].
  - unfold res_map; destruct (value p rho); cbn; [f_equal; ring|reflexivity|reflexivity].
  - rewrite IH, value_set_scale, res_map_comp. apply res_map_ext; intro a; unfold product; ring.
Qed.

Lemma continuity_pt_ext (f g : R -> R) x : (forall y, f y = g y) -> continuity_pt f x -> continuity_pt g x.
Proof.
  intros E H eps He. destruct (H eps He) as (d & Hd & K). exists d; split; [exact Hd|].
  intros y Hy. rewrite <- !E. exact (K y Hy).
Qed.

(** ** Powers *)
Lemma pw_pos x a : 0 < x -> pw x a = Rpower x a.
Proof. unfold pw; destruct (Rlt_dec 0 x); tauto. Qed.
Lemma pw_np x a : 0 <= x -> 0 < a -> np_pow x a = Ok (pw x a).
Proof.
  intros Hx Ha. destruct (Req_dec x 0) as [->|Hne].
  - rewrite np_pow_0 by exact Ha. unfold pw; destruct (Rlt_dec 0 0); [lra|reflexivity].
  - rewrite np_pow_pos, pw_pos by lra. reflexivity.
Qed.
Lemma pw_0 a : pw 0 a = 0. Proof. unfold pw; destruct (Rlt_dec 0 0); [lra|reflexivity]. Qed.
Lemma pw_1 a : pw 1 a = 1.
Proof. rewrite pw_pos by lra. unfold Rpower. rewrite ln_1, Rmult_0_r. apply exp_0. Qed.
Lemma pw_nonneg x a : 0 <= pw x a.
Proof. unfold pw; destruct (Rlt_dec 0 x); [left; apply exp_pos|lra]. Qed.
Lemma pw_mono x y a : 0 < a -> x <= y -> pw x a <= pw y a.
Proof.
  intros Ha H. destruct (Rlt_dec 0 x) as [Hx|Hx].
  - rewrite !pw_pos by lra. apply Rle_Rpower_l; lra.
  - unfold pw at 1. destruct (Rlt_dec 0 x); [lra|]. apply pw_nonneg.
Qed.
Lemma pw_lt x y a : 0 < a -> 0 <= x -> x < y -> pw x a < pw y a.
Proof.
  intros Ha Hx H. rewrite (pw_pos y) by lra. destruct (Rlt_dec 0 x) as [Hx'|Hx'].
  - rewrite pw_pos by assumption. unfold Rpower. apply exp_increasing.
    apply Rmult_lt_compat_l; [assumption|]. apply ln_increasing; assumption.
  - unfold pw. destruct (Rlt_dec 0 x); [lra|]. apply exp_pos.
Qed.
Lemma pw_le1 x a : 0 < a -> x <= 1 -> pw x a <= 1.
Proof. intros Ha Hx. rewrite <- (pw_1 a). now apply pw_mono. Qed.

Lemma pw_continuous a : 0 < a -> continuity (fun x => pw x a).
Proof.
  intros Ha x0. destruct (Rtotal_order x0 0) as [Hn|[->|Hp]].
  - intros eps He. exists (- x0); split; [lra|]. intros x [_ Hx]. cbn in Hx |- *. unfold R_dist in *.
    assert (x < 0) by (apply Rabs_def2 in Hx; lra).
    unfold pw. destruct (Rlt_dec 0 x), (Rlt_dec 0 x0); try lra. rewrite Rminus_0_r, Rabs_R0; exact He.
  - intros eps He. exists (Rpower eps (/ a)). split; [apply exp_pos|].
    intros x [_ Hx]. cbn in Hx |- *. unfold R_dist in *. rewrite pw_0, !Rminus_0_r in *.
    rewrite Rabs_pos_eq by apply pw_nonneg. unfold pw at 1. destruct (Rlt_dec 0 x) as [h|h]; [|exact He].
    rewrite Rabs_pos_eq in Hx by lra.
    replace eps with (Rpower (Rpower eps (/ a)) a).
    + unfold Rpower at 1 2. apply exp_increasing, Rmult_lt_compat_l; [exact Ha|]. now apply ln_increasing.
    + rewrite Rpower_mult, Rinv_l, Rpower_1 by lra. reflexivity.
  - assert (Hc : continuity_pt (fun x => Rpower x a) x0).
    { apply derivable_continuous_pt. exists (a * Rpower x0 (a - 1)). now apply derivable_pt_lim_power. }
    intros eps He. destruct (Hc eps He) as (d & Hd & H). exists (Rmin d x0). split; [apply Rmin_Rgt_r; lra|].
    intros x [[Hx1 Hx2] Hx]. cbn in Hx |- *. unfold R_dist in *.
    assert (Rabs (x - x0) < d) by (eapply Rlt_le_trans; [exact Hx|apply Rmin_l]).
    assert (Hx0 : Rabs (x - x0) < x0) by (eapply Rlt_le_trans; [exact Hx|apply Rmin_r]).
    apply Rabs_def2 in Hx0. rewrite !pw_pos by lra.
    apply (H x). split; [split; [exact Hx1|exact Hx2]|assumption].
Qed.

(** ** Parabolic profile *)
Lemma np_sign_pos x : 0 < x -> np_sign x = 1.
Proof. intro H; unfold np_sign; destruct (Rltb_spec 0 x); [reflexivity|lra]. Qed.
Lemma np_sign_0 : np_sign 0 = 0.
Proof. unfold np_sign; destruct (Rltb_spec 0 0); [lra|]; destruct (Rltb_spec 0 0); [lra|reflexivity]. Qed.

Lemma parab_value core alpha beta rho : 0 < alpha -> 0 < beta ->
  value (parabolic_profile core alpha beta) rho = Ok (parabola core alpha beta (clamp01 rho)).
Proof.
  intros Ha Hb. cbn [value parabolic_profile]. change (clip 0 1 rho) with (clamp01 rho).
  assert (Hr : 0 <= clamp01 rho <= 1) by (apply clip_range; lra).
  set (r := clamp01 rho) in *. rewrite Rabs_pos_eq by lra. rewrite pw_np by lra. cbn [bind].
  assert (E : np_sign r * pw r beta = pw r beta).
  { destruct (Req_dec r 0) as [->|]; [rewrite pw_0; ring|rewrite np_sign_pos by lra; ring]. }
  rewrite E. assert (Hf : 0 <= 1 - pw r beta) by (pose proof (pw_le1 r beta Hb); lra).
  rewrite Rabs_pos_eq by exact Hf. rewrite pw_np by lra. cbn [bind]. unfold parabola. f_equal.
  set (f := 1 - pw r beta) in *.
  destruct (Req_dec f 0) as [->|]; [rewrite pw_0; ring|rewrite np_sign_pos by lra; ring].
Qed.

Lemma parabola_0 core alpha beta : parabola core alpha beta 0 = core.
Proof. unfold parabola; rewrite pw_0, Rminus_0_r, pw_1; ring. Qed.
Lemma parabola_1 core alpha beta : parabola core alpha beta 1 = 0.
Proof. unfold parabola; rewrite pw_1, Rminus_diag_eq by reflexivity. rewrite pw_0; ring. Qed.
Lemma parabola_mono core alpha beta x y : 0 <= core -> 0 < alpha -> 0 < beta -> x <= y ->
  parabola core alpha beta y <= parabola core alpha beta x.
Proof.
  intros Hc Ha Hb H. unfold parabola. apply Rmult_le_compat_l; [exact Hc|].
  apply pw_mono; [exact Ha|]. pose proof (pw_mono x y beta Hb H). lra.
Qed.
Lemma parabola_range core alpha beta x : 0 <= core -> 0 < alpha -> 0 < beta ->
  0 <= parabola core alpha beta x <= core.
Proof.
  intros Hc Ha Hb. unfold parabola. pose proof (pw_nonneg (1 - pw x beta) alpha).
  pose proof (pw_nonneg x beta).
  pose proof (pw_le1 (1 - pw x beta) alpha Ha). split; nra.
Qed.

(** ** Pedestal profile *)
Lemma clip_pw_term q beta : 0 < beta -> 0 <= q -> clip 0 1 (1 - pw q beta) = Rmax (1 - pw q beta) 0.
Proof. intros Hb Hq. unfold clip. apply Rmin_left. apply Rmax_lub; [pose proof (pw_nonneg q beta); lra|lra]. Qed.
Lemma pw_Rmax x a : pw (Rmax x 0) a = pw x a.
Proof.
  unfold Rmax; destruct (Rle_dec x 0) as [h|h]; [|reflexivity]. rewrite pw_0.
  unfold pw; destruct (Rlt_dec 0 x); [lra|reflexivity].
Qed.

(** value as a real function, all parameter ranges at once *)
Definition ped_fun (core ped sep alpha beta rp rho : R) : R :=
  let r := clamp01 rho in
  if Rlt_dec r rp then ped + (core - ped) * pw (1 - pw (r / rp) beta) alpha
  else if Req_EM_T rp 1 then sep else sep + (ped - sep) * ((1 - r) / (1 - rp)).

Lemma ped_value core ped sep alpha beta rho_ped rho : 0 < alpha -> 0 < beta ->
  value (pedestal_profile core ped sep alpha beta rho_ped) rho
  = Ok (ped_fun core ped sep alpha beta (clamp01 rho_ped) rho).
Proof.
  intros Ha Hb. unfold ped_fun. cbn [value pedestal_profile]. change (clip 0 1 rho) with (clamp01 rho). change (clip 0 1 rho_ped) with (clamp01 rho_ped).
  set (r := clamp01 rho). set (rp := clamp01 rho_ped).
  assert (Hr : 0 <= r <= 1) by (apply clip_range; lra).
  assert (Hrp : 0 <= rp <= 1) by (apply clip_range; lra).
  unfold Rltb. destruct (Rlt_dec r rp) as [Hlt|Hge].
  - rewrite np_div_ok by lra. cbn [bind].
    assert (Hq : 0 <= r / rp) by (apply Rmult_le_pos; [lra|left; apply Rinv_0_lt_compat; lra]).
    rewrite pw_np by lra. cbn [bind]. rewrite clip_pw_term by lra.
    rewrite pw_np by (try lra; apply Rmax_r). cbn [bind]. rewrite pw_Rmax. f_equal; ring.
  - unfold Reqb. destruct (Req_EM_T rp 1) as [E|E]; cbn [bind]; [f_equal; ring|].
    rewrite np_div_ok by lra. cbn [bind]. f_equal. field. lra.
Qed.

Lemma ped_fun_clamp core ped sep alpha beta rp rho :
  ped_fun core ped sep alpha beta rp rho = ped_fun core ped sep alpha beta rp (clamp01 rho).
Proof. unfold ped_fun. replace (clamp01 (clamp01 rho)) with (clamp01 rho); [reflexivity|]. symmetry; apply (clip_clip 0 1); lra. Qed.

Section Ped.
  Variables core ped sep alpha beta rp : R.
  Hypothesis Ha : 0 < alpha.
  Hypothesis Hb : 0 < beta.
  Hypothesis Hrp : 0 <= rp <= 1.
  Let f := ped_fun core ped sep alpha beta rp.

  Lemma clamp01_id x : 0 <= x <= 1 -> clamp01 x = x.
  Proof. intro; rewrite clamp_clip; now apply clip_id. Qed.

  Lemma ped_fun_0 : 0 < rp -> f 0 = core.
  Proof.
    intro H. unfold f, ped_fun. rewrite clamp01_id by lra. cbv zeta.
    destruct (Rlt_dec 0 rp); [|lra]. unfold Rdiv; rewrite Rmult_0_l, pw_0, Rminus_0_r, pw_1; ring.
  Qed.
  Lemma ped_fun_1 : f 1 = sep.
  Proof.
    unfold f, ped_fun. rewrite clamp01_id by lra. cbv zeta. destruct (Rlt_dec 1 rp); [lra|].
    destruct (Req_EM_T rp 1); [reflexivity|]. field. lra.
  Qed.
  Lemma ped_fun_ped : rp < 1 -> f rp = ped.
  Proof.
    intro H. unfold f, ped_fun. rewrite clamp01_id by lra. cbv zeta. destruct (Rlt_dec rp rp); [lra|].
    destruct (Req_EM_T rp 1); [lra|]. field. lra.
  Qed.

  Lemma core_part_between r : 
    Rmin core ped <= ped + (core - ped) * pw (1 - pw (r / rp) beta) alpha <= Rmax core ped.
  Proof.
    pose proof (pw_nonneg (1 - pw (r / rp) beta) alpha). pose proof (pw_nonneg (r / rp) beta).
    pose proof (pw_le1 (1 - pw (r / rp) beta) alpha Ha).
    unfold Rmin, Rmax; destruct (Rle_dec core ped); nra.
  Qed.
  Lemma ped_part_frac r : rp <= r <= 1 -> rp <> 1 -> 0 <= (1 - r) / (1 - rp) <= 1.
  Proof.
    intros Hr Hne. split.
    - apply Rmult_le_pos; [lra|left; apply Rinv_0_lt_compat; lra].
    - apply Rmult_le_reg_r with (1 - rp); [lra|]. unfold Rdiv; rewrite Rmult_assoc, Rinv_l; lra.
  Qed.
  Lemma ped_fun_range rho : Rmin core (Rmin ped sep) <= f rho <= Rmax core (Rmax ped sep).
  Proof.
    unfold f, ped_fun. cbv zeta. set (r := clamp01 rho).
    assert (Hr : 0 <= r <= 1) by (apply clip_range; lra).
    pose proof (Rmin_l core (Rmin ped sep)). pose proof (Rmin_r core (Rmin ped sep)).
    pose proof (Rmax_l core (Rmax ped sep)). pose proof (Rmax_r core (Rmax ped sep)).
    pose proof (Rmin_l ped sep). pose proof (Rmin_r ped sep).
    pose proof (Rmax_l ped sep). pose proof (Rmax_r ped sep).
    destruct (Rlt_dec r rp) as [h|h].
    - destruct (core_part_between r) as [L U].
      assert (Rmin core (Rmin ped sep) <= Rmin core ped) by (apply Rmin_glb; lra).
      assert (Rmax core ped <= Rmax core (Rmax ped sep)) by (apply Rmax_lub; lra). lra.
    - destruct (Req_EM_T rp 1) as [E|E]; [lra|].
      pose proof (ped_part_frac r ltac:(lra) E) as F. revert F; generalize ((1 - r) / (1 - rp)); intros u F.
      split; [apply Rle_trans with (Rmin ped sep); [lra|]|apply Rle_trans with (Rmax ped sep); [|lra]];
      [unfold Rmin|unfold Rmax]; destruct (Rle_dec ped sep); nra.
  Qed.

  Lemma ped_fun_mono x y : sep <= ped <= core -> x <= y -> f y <= f x.
  Proof.
    intros Hv Hxy. unfold f, ped_fun. cbv zeta.
    pose proof (clip_mono 0 1 x y Hxy) as Hc. change (clamp01 x <= clamp01 y) in Hc.
    assert (Hx : 0 <= clamp01 x <= 1) by (apply clip_range; lra).
    assert (Hy : 0 <= clamp01 y <= 1) by (apply clip_range; lra).
    set (a := clamp01 x) in *. set (b := clamp01 y) in *.
    assert (P : forall r, rp <= r <= 1 -> rp <> 1 -> sep + (ped - sep) * ((1 - r) / (1 - rp)) <= ped).
    { intros r Hr Hne. pose proof (ped_part_frac r Hr Hne) as F. nra. }
    assert (Q : forall r, ped <= ped + (core - ped) * pw (1 - pw (r / rp) beta) alpha).
    { intro r. pose proof (pw_nonneg (1 - pw (r / rp) beta) alpha). nra. }
    destruct (Rlt_dec b rp) as [hb|hb]; destruct (Rlt_dec a rp) as [ha|ha]; try lra.
    - apply Rplus_le_compat_l, Rmult_le_compat_l; [lra|]. apply pw_mono; [exact Ha|].
      assert (pw (a / rp) beta <= pw (b / rp) beta); [|lra]. apply pw_mono; [exact Hb|].
      apply Rmult_le_compat_r; [left; apply Rinv_0_lt_compat; lra|exact Hc].
    - specialize (Q a). destruct (Req_EM_T rp 1) as [E|E]; [lra|]. specialize (P b ltac:(lra) E). lra.
    - destruct (Req_EM_T rp 1) as [E|E]; [lra|].
      apply Rplus_le_compat_l, Rmult_le_compat_l; [lra|].
      apply Rmult_le_compat_r; [left; apply Rinv_0_lt_compat; lra|lra].
  Qed.

  (** continuity *)
  Lemma clamp01_continuous : continuity clamp01.
  Proof.
    intros x0 eps He. exists eps; split; [exact He|]. intros x [_ Hx]. cbn in Hx |- *; unfold R_dist in *.
    eapply Rle_lt_trans; [|exact Hx]. unfold clamp01, Rmin, Rmax.
    destruct (Rle_dec x 0), (Rle_dec x0 0); repeat destruct Rle_dec; unfold Rabs; repeat destruct Rcase_abs; lra.
  Qed.

  (** On (0,1): max/min form of the profile, a composition of continuous functions. *)
  Lemma ped_fun_form rho : 0 < rp < 1 ->
    f rho = (ped + (core - ped) * pw (1 - pw (clamp01 rho / rp) beta) alpha)
            + (ped - sep) * ((1 - Rmax (clamp01 rho) rp) / (1 - rp) - 1).
  Proof.
    intro H. unfold f, ped_fun. cbv zeta.
    assert (Hr : 0 <= clamp01 rho <= 1) by (apply clip_range; lra).
    set (r := clamp01 rho) in *. destruct (Rlt_dec r rp) as [h|h].
    - rewrite Rmax_right by lra. field. lra.
    - destruct (Req_EM_T rp 1); [lra|]. rewrite Rmax_left by lra.
      assert (Hz : pw (1 - pw (r / rp) beta) alpha = 0).
      { assert (1 <= pw (r / rp) beta).
        { rewrite <- (pw_1 beta). apply pw_mono; [exact Hb|].
          apply Rmult_le_reg_r with rp; [lra|]. unfold Rdiv. rewrite Rmult_assoc, Rinv_l; lra. }
        unfold pw at 1. destruct (Rlt_dec 0 (1 - pw (r / rp) beta)); [lra|reflexivity]. }
      rewrite Hz. field. lra.
  Qed.
  Lemma Rmax_continuous c : continuity (fun x => Rmax x c).
  Proof.
    intros x0 eps He. exists eps; split; [exact He|]. intros x [_ Hx]. cbn in Hx |- *; unfold R_dist in *.
    eapply Rle_lt_trans; [|exact Hx]. unfold Rmax.
    repeat destruct Rle_dec; unfold Rabs; repeat destruct Rcase_abs; lra.
  Qed.
  Lemma ped_fun_continuous : rp < 1 -> continuity f.
  Proof.
    intro H1. destruct (Req_dec rp 0) as [E|E].
    - assert (Hf : forall x, f x = sep + (ped - sep) * (1 - clamp01 x)).
      { intro x. unfold f, ped_fun. cbv zeta. assert (0 <= clamp01 x <= 1) by (apply clip_range; lra).
        destruct (Rlt_dec (clamp01 x) rp); [lra|]. destruct (Req_EM_T rp 1); [lra|]. rewrite E. field. }
      intro x. apply continuity_pt_ext with (fun x => sep + (ped - sep) * (1 - clamp01 x)); [intro; symmetry; apply Hf|].
      apply continuity_pt_plus; [apply continuity_const; intros ? ?; reflexivity|].
      apply continuity_pt_mult; [apply continuity_const; intros ? ?; reflexivity|].
      apply continuity_pt_minus; [apply continuity_const; intros ? ?; reflexivity|apply clamp01_continuous].
    - assert (C : forall k, continuity (fun _ : R => k)) by (intros k; apply continuity_const; intros ? ?; reflexivity).
      intro x. eapply continuity_pt_ext; [intro y; symmetry; apply ped_fun_form; lra|].
      apply continuity_pt_plus.
      + apply continuity_pt_plus; [apply C|]. apply continuity_pt_mult; [apply C|].
        apply (continuity_pt_comp (fun x => 1 - pw (clamp01 x / rp) beta) (fun u => pw u alpha)); [|now apply pw_continuous].
        apply continuity_pt_minus; [apply C|].
        apply (continuity_pt_comp (fun x => clamp01 x / rp) (fun u => pw u beta)); [|now apply pw_continuous].
        apply continuity_pt_mult; [apply clamp01_continuous|apply C].
      + apply continuity_pt_mult; [apply C|]. apply continuity_pt_minus; [|apply C].
        apply continuity_pt_mult; [|apply C]. apply continuity_pt_minus; [apply C|].
        apply (continuity_pt_comp clamp01 (fun u => Rmax u rp)); [apply clamp01_continuous|apply Rmax_continuous].
  Qed.
End Ped.

(** The jump for rho_ped = 1. *)
Lemma ped_fun_jump core ped sep alpha beta : 0 < alpha -> 0 < beta ->
  forall eps, 0 < eps -> exists d, 0 < d /\
    forall rho, 1 - d < rho < 1 -> Rabs (ped_fun core ped sep alpha beta 1 rho - ped) < eps.
Proof.
  intros Ha Hb eps He.
  set (g := fun r => ped + (core - ped) * pw (1 - pw r beta) alpha).
  assert (Hg : continuity_pt g 1).
  { unfold g. assert (C : forall k, continuity (fun _ : R => k)) by (intros k; apply continuity_const; intros ? ?; reflexivity).
    apply continuity_pt_plus; [apply C|]. apply continuity_pt_mult; [apply C|].
    apply (continuity_pt_comp (fun x => 1 - pw x beta) (fun u => pw u alpha)); [|now apply pw_continuous].
    apply continuity_pt_minus; [apply C|now apply pw_continuous]. }
  assert (G1 : g 1 = ped) by (unfold g; rewrite pw_1; replace (1 - 1) with 0 by ring; rewrite pw_0; ring).
  destruct (Hg eps He) as (d & Hd & H). exists (Rmin d 1). split; [apply Rmin_glb_lt; lra|].
  intros rho Hrho. assert (Rmin d 1 <= d) by apply Rmin_l. assert (Rmin d 1 <= 1) by apply Rmin_r.
  unfold ped_fun. cbv zeta. rewrite (clamp01_id rho) by lra. destruct (Rlt_dec rho 1); [|lra].
  unfold Rdiv; rewrite Rinv_1, Rmult_1_r.
  assert (K : Rabs (g rho - g 1) < eps).
  { apply (H rho). split; [split; [exact I|lra]|]. cbn; unfold R_dist. apply Rabs_def1; lra. }
  rewrite G1 in K. exact K.
Qed.
