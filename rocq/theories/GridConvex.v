(** Lemmas for C84 (continued): convex boundaries are simple, cross every height at most twice and travel at most twice their width. *)
From Coq Require Import Reals Lra Lia ZArith List Bool.
From Verif Require Import Base Space SpaceProofs SpecSpace Geometry GeometryProofs SpecGeometry SpecConvex ConvexProofs SpecGrid GridProofs GridProofs2.
Open Scope R_scope.

Lemma winds_sum p l n : winds p l n -> IZR n = edge_sum (ww p) l.
Proof.
  induction 1 as [a|a b l n U _ IH|a b l n D _ IH|a b l n NU ND _ IH]; [reflexivity|rewrite edge_sum_cons, <- IH; unfold ww..].
  - destruct (goes_down p a b && Rltb (turn a b p) 0) eqn:E; [exfalso; apply (not_both p a b U); now apply passes_down_iff|]. apply passes_up_iff in U. rewrite U, plus_IZR. cbn [b2r]. ring.
  - destruct (goes_up p a b && Rleb 0 (turn a b p)) eqn:E; [exfalso; apply (not_both p a b); [now apply passes_up_iff|exact D]|]. apply passes_down_iff in D. rewrite D, minus_IZR. cbn [b2r]. ring.
  - rewrite passes_up_iff in NU. rewrite passes_down_iff in ND. destruct (goes_up p a b && _); [congruence|]. destruct (goes_down p a b && _); [congruence|]. cbn [b2r]. ring.
Qed.
Lemma crossed_sum z l n : crossed z l n -> INR n = edge_sum (fun a b => Rabs (sigma z a b)) l.
Proof.
  induction 1 as [a|a b l n Y _ IH|a b l n N _ IH]; [reflexivity|rewrite edge_sum_cons, <- IH; unfold sigma; destruct (Rleb_spec z (snd a)), (Rleb_spec z (snd b)); cbn [b2r]..]; try lra.
  - rewrite S_INR. replace (0 - 1) with (-1) by ring. rewrite Rabs_left by lra. ring.
  - rewrite S_INR. replace (1 - 0) with 1 by ring. rewrite Rabs_R1. ring.
  - replace (1 - 1) with 0 by ring. rewrite Rabs_R0. ring.
  - replace (0 - 0) with 0 by ring. rewrite Rabs_R0. ring.
Qed.

Lemma count_unique_end f p l : NoDup l -> (forall a b c d, edge (p :: l) a b -> edge (p :: l) c d -> f a b = true -> f c d = true -> b = d) ->
  edge_sum (fun a b => b2r (f a b)) (p :: l) = b2r (parity f (p :: l)).
Proof.
  revert p. induction l as [|q l IH]; intros p N U; [reflexivity|].
  inversion N as [|? ? Nq N']; subst. rewrite parity_cons, edge_sum_cons.
  assert (U' : forall a b c d, edge (q :: l) a b -> edge (q :: l) c d -> f a b = true -> f c d = true -> b = d) by (intros a b c d H1 H2; apply U; now apply edge_next).
  rewrite (IH q N' U'). destruct (f p q) eqn:Epq; [|cbn [b2r]; rewrite xorb_false_l; ring].
  destruct (parity f (q :: l)) eqn:Er; [|cbn; ring]. exfalso. destruct (proj1 (parity_unique_end f q l N' U') Er) as (a & b & H & Hf).
  assert (q = b) by (apply (U p q a b); auto using edge_here, edge_next). subst b. apply edge_ends in H. tauto.
Qed.
Lemma count_unique_start f p l : NoDup (removelast (p :: l)) -> (forall a b c d, edge (p :: l) a b -> edge (p :: l) c d -> f a b = true -> f c d = true -> a = c) ->
  edge_sum (fun a b => b2r (f a b)) (p :: l) = b2r (parity f (p :: l)).
Proof.
  revert p. induction l as [|q l IH]; intros p N U; [reflexivity|].
  change (removelast (p :: q :: l)) with (p :: removelast (q :: l)) in N. inversion N as [|? ? Nq N']; subst. rewrite parity_cons, edge_sum_cons.
  assert (U' : forall a b c d, edge (q :: l) a b -> edge (q :: l) c d -> f a b = true -> f c d = true -> a = c) by (intros a b c d H1 H2; apply U; now apply edge_next).
  rewrite (IH q N' U'). destruct (f p q) eqn:Epq; [|cbn [b2r]; rewrite xorb_false_l; ring].
  destruct (parity f (q :: l)) eqn:Er; [|cbn; ring]. exfalso. destruct (proj1 (parity_unique_start f q l N' U') Er) as (a & b & H & Hf).
  assert (p = a) by (apply (U p q a b); auto using edge_here, edge_next). subst a. apply edge_ends in H. tauto.
Qed.

Section Convex.
  Variable l : list (R * R).
  Hypothesis C : convex_polygon l.
  Lemma count_ends f p : (forall a b, edge l a b -> f a b = true -> goes_up p a b = true) -> edge_sum (fun a b => b2r (f a b)) l = b2r (parity f l).
  Proof.
    intro H. pose proof C as (_ & (v & r & E & L & N) & _). rewrite E in *. apply count_unique_end; [exact N|]. intros a b c d H1 H2 F1 F2. rewrite <- E in C. apply (up_unique l C p a b c d); rewrite ?E; auto.
  Qed.
  Lemma count_starts f p : (forall a b, edge l a b -> f a b = true -> goes_down p a b = true) -> edge_sum (fun a b => b2r (f a b)) l = b2r (parity f l).
  Proof.
    intro H. pose proof C as (_ & (v & r & E & L & N) & _). rewrite E in *. apply count_unique_start; [now apply nodup_removelast|]. intros a b c d H1 H2 F1 F2. rewrite <- E in C. apply (down_unique l C p a b c d); rewrite ?E; auto.
  Qed.
  Lemma convex_simple : simple l.
  Proof.
    split; [now apply convex_loop|]. left. intros p n _ W. apply winds_sum in W. unfold ww in W.
    rewrite (edge_sum_ext _ (fun a b => b2r (goes_up p a b && Rleb 0 (turn a b p)) + -1 * b2r (goes_down p a b && Rltb (turn a b p) 0))) in W by (intros; ring).
    rewrite edge_sum_plus, edge_sum_scale, (count_ends _ p), (count_starts _ p) in W.
    2:{ intros a b _ H. apply andb_prop in H. tauto. } 2:{ intros a b _ H. apply andb_prop in H. tauto. }
    destruct (parity (fun a b => goes_up p a b && Rleb 0 (turn a b p)) l) eqn:EU, (parity (fun a b => goes_down p a b && Rltb (turn a b p) 0) l) eqn:ED; cbn [b2r] in W.
    - left. apply eq_IZR. lra.
    - right. apply eq_IZR. lra.
    - exfalso. pose proof (inside_convex l C p) as I. rewrite (inside_edges l C), EU, ED in I. destruct (proj1 I eq_refl) as [Hp _].
      apply (parity_down l C) in ED. destruct ED as (c & d & Hcd & _ & T). specialize (Hp c d Hcd). lra.
    - left. apply eq_IZR. lra.
  Qed.
  Lemma convex_crossed : crossed_at_most 2 l.
  Proof.
    intros z n W. apply crossed_sum in W.
    rewrite (edge_sum_ext _ (fun a b => b2r (goes_up (0, z) a b) + b2r (goes_down (0, z) a b))) in W.
    2:{ intros a b. unfold sigma, goes_up, goes_down, at_or_above. cbn [snd]. destruct (Rleb z (snd a)), (Rleb z (snd b)); cbn [b2r negb andb]; unfold Rabs; destruct (Rcase_abs _); lra. }
    rewrite edge_sum_plus, (count_ends _ (0, z)), (count_starts _ (0, z)) in W by auto. apply INR_le. rewrite W. cbn.
    destruct (parity _ l), (parity _ l); cbn; lra.
  Qed.
End Convex.

(** ** The distance travelled *)
Lemma sumf_le {A} (f g : A -> R) l : (forall a, In a l -> f a <= g a) -> sumf f l <= sumf g l.
Proof. induction l as [|a l IH]; intro H; [cbn; lra|]. rewrite !sumf_cons. pose proof (H a (or_introl eq_refl)). assert (sumf f l <= sumf g l) by (apply IH; intros; apply H; now right). lra. Qed.
Lemma travel_z_bound l c Zlo Zhi : l <> [] -> crossed_at_most c l -> (forall v, In v l -> Zlo <= snd v <= Zhi) -> edge_sum (fun a b => Rabs (snd b - snd a)) l <= INR c * (Zhi - Zlo).
Proof.
  intros Ne Hc Hz. pose proof (pos_INR c) as Pc. assert (P0 : Zlo <= Zhi) by (destruct l as [|v l]; [congruence|]; destruct (Hz v (or_introl eq_refl)); lra).
  apply Rminus_le. apply Ropp_le_cancel. rewrite Ropp_0. apply (small_nonneg _ (INR c + INR (length l))); [pose proof (pos_INR (length l)); lra|]. intros h [Hh _].
  set (K := upto Zlo h Zhi). destruct (upto_spec Zlo h Hh Zhi P0) as [_ HK]. fold K in HK.
  assert (RU : forall v, Zlo <= v < node Zlo h K -> sumf (fun z => b2r (Rleb z v)) (row Zlo h K) = INR (upto Zlo h v)).
  { intros v Hv. rewrite (sumf_ext _ (fun z => b2r (Rleb z v) * (fun _ => 1) z)) by (intros; ring). rewrite (rows_upto Zlo h K Hh (fun _ => 1) v Hv). rewrite sumf_const, seq_length. ring. }
  set (N := sumf (fun z => edge_sum (fun a b => Rabs (sigma z a b)) l) (row Zlo h K)).
  assert (A : edge_sum (fun a b => Rabs (snd b - snd a)) l <= h * N + INR (length l) * h).
  { unfold N. rewrite sumf_edges. clear N. assert (HE : forall a b, edge l a b -> Rabs (snd b - snd a) <= h * sumf (fun j => Rabs (sigma j a b)) (row Zlo h K) + h).
    { intros a b E. destruct (edge_In l a b E) as [Ia Ib]. pose proof (Hz a Ia) as Za. pose proof (Hz b Ib) as Zb.
      assert (Q : Rabs (sumf (fun j => sigma j a b) (row Zlo h K)) <= sumf (fun j => Rabs (sigma j a b)) (row Zlo h K)) by (apply sumf_abs; intros; lra).
      unfold sigma in Q at 1. rewrite (sumf_ext _ (fun z => b2r (Rleb z (snd b)) + -1 * b2r (Rleb z (snd a)))) in Q by (intros; ring).
      rewrite sumf_plus, sumf_scale, !RU in Q by lra. pose proof (upto_near Zlo h Hh (snd a) ltac:(lra)) as N1. pose proof (upto_near Zlo h Hh (snd b) ltac:(lra)) as N2. unfold node in N1, N2. apply abs_inv in N1, N2, Q.
      set (S := sumf _ _) in *. apply Rabs_le. assert (h * INR (upto Zlo h (snd b)) - h * INR (upto Zlo h (snd a)) <= h * S) by nra. assert (- (h * S) <= h * INR (upto Zlo h (snd b)) - h * INR (upto Zlo h (snd a))) by nra. lra. }
    clear -HE Hh. induction l as [|p m IH]; [cbn; lra|]. destruct m as [|q m]; [cbn; lra|]. rewrite !edge_sum_cons. cbn [length] in *. rewrite S_INR.
    pose proof (HE p q (edge_here p q m)). assert (edge_sum (fun a b => Rabs (snd b - snd a)) (q :: m) <= h * edge_sum (fun a b => sumf (fun j => Rabs (sigma j a b)) (row Zlo h K)) (q :: m) + INR (S (length m)) * h) by (apply IH; intros; apply HE; now apply edge_next). lra. }
  assert (B : N <= INR c * INR (K - 1)).
  { unfold N. apply Rle_trans with (sumf (fun z => INR c * (b2r (Rleb z Zhi) - b2r (Rleb z Zlo))) (row Zlo h K)).
    - apply sumf_le. intros z _.
      destruct (crossed_ex z l Ne) as (n & W & En). destruct (Rleb_spec z Zhi) as [A1|A1], (Rleb_spec z Zlo) as [B1|B1]; cbn [b2r].
      + rewrite (edge_sum_ext_edges _ (fun _ _ => 0 * 0)); [rewrite edge_sum_scale; lra|]. intros a b E. destruct (edge_In l a b E) as [Ia Ib]. pose proof (Hz a Ia). pose proof (Hz b Ib). unfold sigma. destruct (Rleb_spec z (snd a)); [|lra]. destruct (Rleb_spec z (snd b)); [|lra]. cbn [b2r]. replace (1 - 1) with 0 by ring. rewrite Rabs_R0. ring.
      + rewrite <- En. specialize (Hc z n W). apply le_INR in Hc. lra.
      + lra.
      + rewrite (edge_sum_ext_edges _ (fun _ _ => 0 * 0)); [rewrite edge_sum_scale; lra|]. intros a b E. destruct (edge_In l a b E) as [Ia Ib]. pose proof (Hz a Ia). pose proof (Hz b Ib). unfold sigma. destruct (Rleb_spec z (snd a)); [lra|]. destruct (Rleb_spec z (snd b)); [lra|]. cbn [b2r]. replace (0 - 0) with 0 by ring. rewrite Rabs_R0. ring.
    - rewrite sumf_scale. apply Rmult_le_compat_l; [exact Pc|]. rewrite (sumf_ext _ (fun z => b2r (Rleb z Zhi) + -1 * b2r (Rleb z Zlo))) by (intros; ring). rewrite sumf_plus, sumf_scale, !RU by lra. fold K.
      assert (1 <= INR (upto Zlo h Zlo)) by (unfold upto; rewrite S_INR; pose proof (pos_INR (Z.to_nat (Int_part ((Zlo - Zlo) / h)))); lra). rewrite minus_INR by (unfold K, upto; lia). change (INR 1) with 1. lra. }
  destruct (upto_spec Zlo h Hh Zhi P0) as [D _]. fold K in D. unfold node in D.
  assert (h * N <= INR c * (Zhi - Zlo)). { apply Rle_trans with (h * (INR c * INR (K - 1))); [apply Rmult_le_compat_l; lra|]. replace (h * (INR c * INR (K - 1))) with (INR c * (INR (K - 1) * h)) by ring. apply Rmult_le_compat_l; lra. }
  nra.
Qed.

Definition swap (p : R * R) : R * R := (snd p, fst p).
Lemma edge_map (f : R * R -> R * R) l a b : edge (map f l) a b -> exists a' b', edge l a' b' /\ a = f a' /\ b = f b'.
Proof.
  induction l as [|p l IH]; [intro H; now apply edge_nil in H|]. destruct l as [|q l]; [intro H; now apply edge_single in H|]. cbn [map]. intro H. apply edge_inv in H. destruct H as [[-> ->]|H].
  - exists p, q. split; [apply edge_here|auto].
  - destruct (IH H) as (a' & b' & E & ? & ?). exists a', b'. split; [now apply edge_next|auto].
Qed.
Lemma edge_rev l a b : edge (rev l) a b -> edge l b a.
Proof.
  intros (l1 & l2 & E). exists (rev l2), (rev l1). rewrite <- (rev_involutive l), E, rev_app_distr. cbn [rev]. now rewrite <- !app_assoc.
Qed.
Lemma convex_swap l : convex_polygon l -> convex_polygon (rev (map swap l)).
Proof.
  intros (Len & (p & r & E & L & N) & H).
  assert (Inj : forall u v, swap u = swap v -> u = v) by (intros [u1 u2] [v1 v2] Q; injection Q; congruence).
  split; [now rewrite rev_length, map_length|]. split.
  - destruct (exists_last (l := r)) as (m & x & Er); [intros ->; subst l; cbn in Len; lia|]. rewrite Er, last_last in L. subst x.
    exists (swap p), (rev (map swap m) ++ [swap p]). split; [|split].
    + rewrite E, Er. cbn [map rev]. rewrite map_app, rev_app_distr. reflexivity.
    + now rewrite last_last.
    + rewrite Er in N. apply (FinFun.Injective_map_NoDup (f := swap)) in N; [|intros u v; apply Inj]. rewrite map_app in N. cbn [map] in N.
      apply (Permutation.Permutation_NoDup (l := map swap m ++ [swap p])); [|exact N]. apply Permutation.Permutation_app_tail, Permutation.Permutation_rev.
  - intros a b c E1 Hc Na Nb. apply edge_rev in E1. apply edge_map in E1. destruct E1 as (b' & a' & E1 & -> & ->). rewrite <- in_rev in Hc. apply in_map_iff in Hc. destruct Hc as (c' & <- & Hc).
    assert (T : 0 < turn b' a' c') by (apply H; auto; congruence). replace (turn (swap a') (swap b') (swap c')) with (turn b' a' c') by (unfold turn, swap; cbn; ring). exact T.
Qed.
Lemma convex_travel l W0 W1 : convex_polygon l -> (forall v, In v l -> W0 <= fst v <= W1) -> travel_x l <= 2 * (W1 - W0).
Proof.
  intros C H. rewrite travel_edges. pose proof (travel_z_bound (rev (map swap l)) 2 W0 W1) as T.
  assert (Q : edge_sum (fun a b => Rabs (snd b - snd a)) (rev (map swap l)) <= INR 2 * (W1 - W0)).
  { apply T.
    - intro E. apply (f_equal (@length _)) in E. rewrite rev_length, map_length in E. destruct C as (Len & _). cbn in E. lia.
    - apply convex_crossed. now apply convex_swap.
    - intros v Hv. rewrite <- in_rev in Hv. apply in_map_iff in Hv. destruct Hv as (w & <- & Hw). now apply H. }
  rewrite edge_sum_rev, edge_sum_map in Q. cbn [swap snd] in Q. rewrite (edge_sum_ext _ (fun a b => Rabs (fst b - fst a))) in Q by (intros; apply Rabs_minus_sym). cbn in Q. lra.
Qed.
