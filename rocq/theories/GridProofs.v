(** Lemmas for C84: sums over the cells against boundary integrals. *)
From Coq Require Import Reals Lra Lia ZArith List Bool.
From Verif Require Import Base Space SpaceProofs SpecSpace Geometry GeometryProofs SpecGeometry SpecConvex ConvexProofs SpecGrid.
Open Scope R_scope.

Lemma abs_inv x y : Rabs x <= y -> - y <= x <= y.
Proof. unfold Rabs. destruct (Rcase_abs x); lra. Qed.
(** ** Sums over lists *)
Definition sumf {A} (f : A -> R) (l : list A) : R := fold_right (fun a s => f a + s) 0 l.
Lemma sumf_cons {A} (f : A -> R) a l : sumf f (a :: l) = f a + sumf f l. Proof. reflexivity. Qed.
Lemma sumf_app {A} (f : A -> R) l m : sumf f (l ++ m) = sumf f l + sumf f m.
Proof. induction l as [|a l IH]; cbn [app]; [cbn; ring|]. rewrite !sumf_cons, IH. ring. Qed.
Lemma sumf_map {A B} (f : B -> R) (g : A -> B) l : sumf f (map g l) = sumf (fun a => f (g a)) l.
Proof. induction l as [|a l IH]; [reflexivity|]. cbn [map]. now rewrite !sumf_cons, IH. Qed.
Lemma sumf_ext {A} (f g : A -> R) l : (forall a, In a l -> f a = g a) -> sumf f l = sumf g l.
Proof. induction l as [|a l IH]; intro H; [reflexivity|]. rewrite !sumf_cons, IH by (intros; apply H; now right). now rewrite H by now left. Qed.
Lemma sumf_plus {A} (f g : A -> R) l : sumf (fun a => f a + g a) l = sumf f l + sumf g l.
Proof. induction l as [|a l IH]; [cbn; ring|]. rewrite !sumf_cons, IH. ring. Qed.
Lemma sumf_scale {A} c (f : A -> R) l : sumf (fun a => c * f a) l = c * sumf f l.
Proof. induction l as [|a l IH]; [cbn; ring|]. rewrite !sumf_cons, IH. ring. Qed.
Lemma sumf_filter {A} (f : A -> R) (b : A -> bool) l : sumf f (filter b l) = sumf (fun a => if b a then f a else 0) l.
Proof. induction l as [|a l IH]; [reflexivity|]. cbn [filter]. rewrite sumf_cons. destruct (b a); [rewrite sumf_cons|]; rewrite IH; ring. Qed.
Lemma sumf_zero {A} (l : list A) : sumf (fun _ => 0) l = 0.
Proof. induction l as [|a l IH]; [reflexivity|]. rewrite sumf_cons, IH. ring. Qed.
Lemma sumf_swap {A B} (f : A -> B -> R) l m : sumf (fun a => sumf (f a) m) l = sumf (fun b => sumf (fun a => f a b) l) m.
Proof.
  induction l as [|a l IH]; [cbn [sumf fold_right]; now rewrite sumf_zero|]. rewrite sumf_cons, IH, <- sumf_plus. apply sumf_ext. reflexivity.
Qed.
Lemma sumf_mesh (f : R * R -> R) xs zs : sumf f (mesh xs zs) = sumf (fun z => sumf (fun x => f (x, z)) xs) zs.
Proof.
  rewrite <- sumf_swap. unfold mesh. induction xs as [|x xs IH]; [reflexivity|]. cbn [flat_map]. rewrite sumf_app, sumf_cons, IH, sumf_map. reflexivity.
Qed.
Lemma sumf_abs {A} (f g : A -> R) l : (forall a, In a l -> Rabs (f a) <= g a) -> Rabs (sumf f l) <= sumf g l.
Proof.
  induction l as [|a l IH]; intro H; [cbn; rewrite Rabs_R0; lra|]. rewrite !sumf_cons. eapply Rle_trans; [apply Rabs_triang|].
  apply Rplus_le_compat; [apply H; now left|apply IH; intros; apply H; now right].
Qed.
Lemma sumf_edges {A} (F : A -> R * R -> R * R -> R) js l : sumf (fun j => edge_sum (F j) l) js = edge_sum (fun a b => sumf (fun j => F j a b) js) l.
Proof.
  induction l as [|p l IH]; [apply sumf_zero|]. destruct l as [|q l]; [apply sumf_zero|]. rewrite edge_sum_cons, <- IH, <- sumf_plus. apply sumf_ext. intros. apply edge_sum_cons.
Qed.
Lemma edge_sum_abs f g l : (forall a b, edge l a b -> Rabs (f a b) <= g a b) -> Rabs (edge_sum f l) <= edge_sum g l.
Proof.
  induction l as [|p l IH]; intro H; [cbn; rewrite Rabs_R0; lra|]. destruct l as [|q l]; [cbn; rewrite Rabs_R0; lra|]. rewrite !edge_sum_cons. eapply Rle_trans; [apply Rabs_triang|].
  apply Rplus_le_compat; [apply H, edge_here|apply IH; intros; apply H; now apply edge_next].
Qed.
Lemma edge_sum_le f g l : (forall a b, edge l a b -> f a b <= g a b) -> edge_sum f l <= edge_sum g l.
Proof.
  induction l as [|p l IH]; intro H; [cbn; lra|]. destruct l as [|q l]; [cbn; lra|]. rewrite !edge_sum_cons.
  apply Rplus_le_compat; [apply H, edge_here|apply IH; intros; apply H; now apply edge_next].
Qed.
Lemma edge_sum_loop g l : loop l -> edge_sum (fun a b => g b - g a) l = 0.
Proof. intros (p & r & -> & L). rewrite edge_sum_tele, L. ring. Qed.

(** ** A row of equally spaced centres *)
Section Row.
  Variables a h : R.
  Hypothesis Hh : 0 < h.
  Definition node (i : nat) : R := a + INR i * h.
  Definition row (M : nat) : list R := map node (seq 0 M).
  Lemma node_S i : node (S i) = node i + h. Proof. unfold node. rewrite S_INR. ring. Qed.
  Lemma node_lt i j : (i < j)%nat -> node i < node j.
  Proof. intro H. unfold node. apply lt_INR in H. nra. Qed.
  Lemma node_le i j : (i <= j)%nat -> node i <= node j.
  Proof. intro H. unfold node. apply le_INR in H. nra. Qed.
  (** The number of centres up to z (for z >= a). *)
  Definition upto (z : R) : nat := S (Z.to_nat (Int_part ((z - a) / h))).
  Lemma upto_spec z : a <= z -> node (upto z - 1) <= z < node (upto z).
  Proof.
    intro H. unfold upto. cbn [Nat.sub]. rewrite Nat.sub_0_r. destruct (Int_part_spec ((z - a) / h)) as [A B].
    assert (Q : (z - a) / h * h = z - a) by (field; lra). assert (P : 0 <= (z - a) / h) by (apply Rmult_le_pos; [lra|left; now apply Rinv_0_lt_compat]).
    assert (0 <= Int_part ((z - a) / h))%Z. { assert (-1 < Int_part ((z - a) / h))%Z; [|lia]. apply lt_IZR. change (IZR (-1)) with (-1). lra. }
    rewrite node_S. unfold node. rewrite INR_IZR_INZ, Z2Nat.id by assumption. split; nra.
  Qed.
  Lemma upto_iff z i : a <= z -> (node i <= z <-> (i < upto z)%nat).
  Proof.
    intro H. destruct (upto_spec z H) as [A B]. split; intro Q.
    - destruct (Nat.lt_ge_cases i (upto z)) as [L|L]; [exact L|]. apply node_le in L. lra.
    - assert (L : (i <= upto z - 1)%nat) by lia. apply node_le in L. lra.
  Qed.
  (** the same with < *)
  Definition below (z : R) : nat := if Req_EM_T (node (upto z - 1)) z then (upto z - 1)%nat else upto z.
  Lemma below_iff z i : a <= z -> (node i < z <-> (i < below z)%nat).
  Proof.
    intro H. destruct (upto_spec z H) as [A B]. pose proof (upto_iff z i H) as U. unfold below. destruct (Req_EM_T (node (upto z - 1)) z) as [E|N].
    - split; intro Q.
      + destruct (Nat.lt_ge_cases i (upto z - 1)) as [L|L]; [exact L|]. apply node_le in L. lra.
      + apply node_lt in Q. lra.
    - rewrite <- U. split; [lra|]. intro Q. destruct (Req_dec (node i) z) as [E|]; [|lra]. exfalso. apply N. apply U in Q. assert (L : (i <= upto z - 1)%nat) by lia. apply node_le in L. lra.
  Qed.
  (** Both counts put the end of the last cell within half a cell of z. *)
  Lemma upto_near z : a <= z -> Rabs (node (upto z) - h / 2 - z) <= h / 2.
  Proof. intro H. destruct (upto_spec z H) as [A B]. replace (node (upto z)) with (node (upto z - 1) + h) in *. - apply Rabs_le. lra. - unfold upto. cbn [Nat.sub]. rewrite Nat.sub_0_r. symmetry. apply node_S. Qed.
  Lemma below_near z : a < z -> Rabs (node (below z) - h / 2 - z) <= h / 2.
  Proof.
    intro H. unfold below. destruct (Req_EM_T (node (upto z - 1)) z) as [E|N]; [|apply upto_near; lra]. rewrite E. apply Rabs_le. lra.
  Qed.
  Lemma seq_below (f : nat -> R) k M : (k <= M)%nat -> sumf (fun i => if (i <? k)%nat then f i else 0) (seq 0 M) = sumf f (seq 0 k).
  Proof.
    intro H. replace M with (k + (M - k))%nat by lia. rewrite seq_app, sumf_app. cbn [Nat.add].
    rewrite (sumf_ext (fun i => if (i <? k)%nat then f i else 0) f (seq 0 k)). 2:{ intros i Hi. apply in_seq in Hi. destruct (Nat.ltb_spec i k); [reflexivity|lia]. }
    rewrite (sumf_ext _ (fun _ => 0) (seq k (M - k))); [rewrite sumf_zero; ring|]. intros i Hi. apply in_seq in Hi. destruct (Nat.ltb_spec i k); [lia|reflexivity].
  Qed.
  Lemma row_sum (b : R -> bool) (f : R -> R) k M : (k <= M)%nat -> (forall i, b (node i) = (i <? k)%nat) -> sumf (fun x => if b x then f x else 0) (row M) = sumf (fun i => f (node i)) (seq 0 k).
  Proof.
    intros H Hb. unfold row. rewrite sumf_map, <- (seq_below _ k M H). apply sumf_ext. intros i _. now rewrite Hb.
  Qed.

  (** Cells with the weight g = G', telescoping. *)
  Variables al be : R.
  Definition GG (x : R) : R := al * (x * x) + be * x.
  Definition gg (x : R) : R := 2 * al * x + be.
  Lemma cells_tele k : sumf (fun i => gg (node i) * h) (seq 0 k) = GG (node k - h / 2) - GG (a - h / 2).
  Proof.
    induction k as [|k IH]; [unfold node; cbn; unfold GG; ring|]. rewrite seq_S, sumf_app, IH. cbn [sumf fold_right Nat.add]. rewrite node_S. unfold GG, gg. field.
  Qed.
End Row.

(** ** One edge: a sum over the rows against the integral *)
Section EdgeSum.
  Variables z0 h al be p q : R.
  Hypothesis Hh : 0 < h.
  Hypothesis Hal : 0 <= al.
  Hypothesis Hbe : 0 <= be.
  Notation zn := (node z0 h).
  Definition ff (z : R) : R := GG al be (p + q * z).
  Definition FF (z : R) : R := al * (p * p * z + p * q * (z * z) + q * q * (z * z * z) / 3) + be * (p * z + q * (z * z) / 2).
  Definition Phi (k : nat) (z : R) : R := h * sumf (fun j => ff (zn j)) (seq 0 k) - FF z - ff z * (zn k - h / 2 - z).
  Lemma Phi_jump k : Phi (S k) (zn k) = Phi k (zn k).
  Proof. unfold Phi. rewrite seq_S, sumf_app. cbn [sumf fold_right Nat.add]. rewrite node_S. field. Qed.
  Lemma Phi_step k u v : zn k - h <= u <= v -> v <= zn k -> 0 <= p + q * u -> 0 <= p + q * v -> Rabs (Phi k v - Phi k u) <= h / 2 * Rabs (ff v - ff u).
  Proof.
    intros [U1 U2] V W1 W2. set (N := zn k - h / 2). set (m := (u + v) / 2). set (d := fun t => 2 * al * (p + q * t) + be). set (e := fun t => N - t).
    assert (E1 : Phi k v - Phi k u = - q * ((v - u) / 6 * (d u * e u + 4 * (d m * e m) + d v * e v))) by (unfold Phi, ff, FF, GG, d, e, m, N; field).
    assert (E2 : ff v - ff u = q * ((v - u) / 6 * (d u + 4 * d m + d v))) by (unfold ff, GG, d, m; field).
    assert (D : forall t, 0 <= p + q * t -> 0 <= d t) by (intros t Ht; unfold d; pose proof (Rmult_le_pos _ _ Hal Ht); lra).
    assert (Wm : 0 <= p + q * m) by (unfold m; replace (p + q * ((u + v) / 2)) with (((p + q * u) + (p + q * v)) / 2) by field; lra).
    assert (B : forall t, u <= t <= v -> 0 <= d t -> Rabs (d t * e t) <= h / 2 * d t).
    { intros t Ht Hd. rewrite Rabs_mult, (Rabs_pos_eq (d t)) by exact Hd. rewrite Rmult_comm. apply Rmult_le_compat_r; [exact Hd|]. unfold e, N. apply Rabs_le. lra. }
    assert (Hm : u <= m <= v) by (unfold m; lra).
    set (S1 := d u * e u + 4 * (d m * e m) + d v * e v) in *. set (S2 := d u + 4 * d m + d v) in *.
    rewrite E1, E2, (Rabs_mult (- q)), (Rabs_mult q), Rabs_Ropp, (Rabs_mult _ S1), (Rabs_mult _ S2).
    replace (h / 2 * (Rabs q * (Rabs ((v - u) / 6) * Rabs S2))) with (Rabs q * (Rabs ((v - u) / 6) * (h / 2 * Rabs S2))) by ring.
    apply Rmult_le_compat_l; [apply Rabs_pos|]. apply Rmult_le_compat_l; [apply Rabs_pos|]. unfold S1, S2.
    pose proof (B u ltac:(lra) (D u W1)) as Bu. pose proof (B v ltac:(lra) (D v W2)) as Bv. pose proof (B m Hm (D m Wm)) as Bm. pose proof (D u W1). pose proof (D v W2). pose proof (D m Wm).
    rewrite (Rabs_pos_eq (d u + 4 * d m + d v)) by lra. eapply Rle_trans; [apply Rabs_triang|]. eapply Rle_trans; [apply Rplus_le_compat_r, Rabs_triang|].
    rewrite (Rabs_mult 4), (Rabs_pos_eq 4) by lra. lra.
  Qed.
  Lemma ff_mono u w v : u <= w <= v -> 0 <= p + q * u -> 0 <= p + q * v -> Rabs (ff w - ff u) + Rabs (ff v - ff w) = Rabs (ff v - ff u).
  Proof.
    intros [H1 H2] W1 W2.
    assert (E : forall s t, ff t - ff s = q * (t - s) * (al * ((p + q * s) + (p + q * t)) + be)) by (intros; unfold ff, GG; ring).
    assert (Ww : 0 <= p + q * w) by (destruct (Rle_dec 0 q); nra).
    assert (D : forall s t, 0 <= p + q * s -> 0 <= p + q * t -> 0 <= al * ((p + q * s) + (p + q * t)) + be) by (intros s t A B; assert (0 <= al * ((p + q * s) + (p + q * t))) by (apply Rmult_le_pos; lra); lra).
    destruct (Rle_dec 0 q) as [Q|Q].
    - assert (P : forall s t, s <= t -> 0 <= p + q * s -> 0 <= p + q * t -> 0 <= ff t - ff s) by (intros s t A B C; rewrite E; apply Rmult_le_pos; [apply Rmult_le_pos; lra|now apply D]).
      rewrite !Rabs_pos_eq; [lra|apply P; lra..].
    - assert (P : forall s t, s <= t -> 0 <= p + q * s -> 0 <= p + q * t -> ff t - ff s <= 0). { intros s t A B C. rewrite E. specialize (D s t B C). assert (0 <= - q * (t - s)) by (apply Rmult_le_pos; lra). nra. }
      rewrite !Rabs_left1; [lra|apply P; lra..].
  Qed.
  Lemma Phi_chain : forall d k u v, zn k - h <= u -> (d = 0%nat \/ u <= zn k) -> u <= v -> zn (k + d) - h <= v <= zn (k + d) -> 0 <= p + q * u -> 0 <= p + q * v ->
    Rabs (Phi (k + d) v - Phi k u) <= h / 2 * Rabs (ff v - ff u).
  Proof.
    induction d as [|d IH]; intros k u v U1 U2 UV V W1 W2.
    - rewrite Nat.add_0_r in *. apply Phi_step; lra.
    - destruct U2 as [|U2]; [discriminate|]. set (w := zn k) in *.
      assert (Kv : w <= v). { destruct V as [V _]. assert (zn (k + 1) <= zn (k + S d)) by (apply node_le; [exact Hh|lia]). replace (k + 1)%nat with (S k) in H by lia. rewrite node_S in H. fold w in H. lra. }
      assert (Ww : 0 <= p + q * w) by (destruct (Rle_dec 0 q); nra).
      pose proof (Phi_step k u w ltac:(fold w; lra) ltac:(fold w; lra) W1 Ww) as A.
      replace (k + S d)%nat with (S k + d)%nat in * by lia.
      assert (B : Rabs (Phi (S k + d) v - Phi (S k) w) <= h / 2 * Rabs (ff v - ff w)).
      { apply IH; auto; try (right; rewrite node_S; fold w; lra); try (rewrite node_S; fold w; lra). }
      unfold w in B at 1. rewrite Phi_jump in B. fold w in B. rewrite <- (ff_mono u w v) by (auto; lra).
      replace (Phi (S k + d) v - Phi k u) with ((Phi (S k + d) v - Phi k w) + (Phi k w - Phi k u)) by ring. eapply Rle_trans; [apply Rabs_triang|]. lra.
  Qed.
  (** For two heights in either order. *)
  Notation ee := (fun z => node z0 h (upto z0 h z) - h / 2 - z).
  Lemma upto_mono u v : z0 <= u -> u <= v -> (upto z0 h u <= upto z0 h v)%nat.
  Proof.
    intros H L. destruct (upto_spec z0 h Hh u H) as [A _]. destruct (upto_spec z0 h Hh v ltac:(lra)) as [_ B]. destruct (Nat.le_gt_cases (upto z0 h u) (upto z0 h v)) as [X|X]; [exact X|].
    assert (Y : (upto z0 h v <= upto z0 h u - 1)%nat) by lia. apply (node_le z0 h Hh) in Y. lra.
  Qed.
  Lemma edge_rows_le u v : z0 <= u -> u <= v -> 0 <= p + q * u -> 0 <= p + q * v ->
    Rabs (h * (sumf (fun j => ff (zn j)) (seq 0 (upto z0 h v)) - sumf (fun j => ff (zn j)) (seq 0 (upto z0 h u))) - (FF v - FF u) - (ff v * ee v - ff u * ee u)) <= h / 2 * Rabs (ff v - ff u).
  Proof.
    intros H L W1 W2. destruct (upto_spec z0 h Hh u H) as [A1 A2]. destruct (upto_spec z0 h Hh v ltac:(lra)) as [B1 B2]. pose proof (upto_mono u v H L) as M.
    assert (S1 : zn (upto z0 h u) = zn (upto z0 h u - 1) + h) by (rewrite <- node_S; f_equal; unfold upto; lia).
    assert (S2 : zn (upto z0 h v) = zn (upto z0 h v - 1) + h) by (rewrite <- node_S; f_equal; unfold upto; lia).
    pose proof (Phi_chain (upto z0 h v - upto z0 h u) (upto z0 h u) u v) as P. replace (upto z0 h u + (upto z0 h v - upto z0 h u))%nat with (upto z0 h v) in P by lia.
    replace (_ - _ - _) with (Phi (upto z0 h v) v - Phi (upto z0 h u) u) by (unfold Phi; ring). apply P; auto; lra.
  Qed.
  Lemma edge_rows u v : z0 <= u -> z0 <= v -> 0 <= p + q * u -> 0 <= p + q * v ->
    Rabs (h * (sumf (fun j => ff (zn j)) (seq 0 (upto z0 h v)) - sumf (fun j => ff (zn j)) (seq 0 (upto z0 h u))) - (FF v - FF u) - (ff v * ee v - ff u * ee u)) <= h / 2 * Rabs (ff v - ff u).
  Proof.
    intros Hu Hv W1 W2. destruct (Rle_dec u v) as [L|L]; [now apply edge_rows_le|].
    pose proof (edge_rows_le v u Hv ltac:(lra) W2 W1) as E. rewrite <- Rabs_Ropp, (Rabs_minus_sym (ff v)).
    replace (- (_ - _ - _)) with (h * (sumf (fun j => ff (zn j)) (seq 0 (upto z0 h u)) - sumf (fun j => ff (zn j)) (seq 0 (upto z0 h v))) - (FF u - FF v) - (ff u * ee u - ff v * ee v)) by ring. exact E.
  Qed.
End EdgeSum.

(** ** The whole polygon *)
Definition b2r (b : bool) : R := if b then 1 else 0.
Definition sigma (z : R) (a b : R * R) : R := b2r (Rleb z (snd b)) - b2r (Rleb z (snd a)).
Definition ww (p a b : R * R) : R := b2r (goes_up p a b && Rleb 0 (turn a b p)) - b2r (goes_down p a b && Rltb (turn a b p) 0).

Lemma passes_up_iff p a b : passes_up p a b <-> goes_up p a b && Rleb 0 (turn a b p) = true.
Proof. unfold passes_up. rewrite andb_true_iff, goes_up_spec. split; intros [A B]; (split; [exact A|]); now apply Rleb_true. Qed.
Lemma passes_down_iff p a b : passes_down p a b <-> goes_down p a b && Rltb (turn a b p) 0 = true.
Proof. unfold passes_down. rewrite andb_true_iff, goes_down_spec. split; intros [A B]; (split; [exact A|]); now apply Rltb_true. Qed.
Lemma not_both p a b : passes_up p a b -> passes_down p a b -> False.
Proof. intros [A _] [B _]. lra. Qed.

(** The winding number exists, and its parity is what matplotlib computes. *)
Lemma winds_ex p l : l <> [] -> exists n, winds p l n /\ IZR n = edge_sum (ww p) l /\ Z.odd n = parity (crossing p) l.
Proof.
  induction l as [|a l IH]; [congruence|]. intros _. destruct l as [|b l]; [exists 0%Z; repeat split; constructor|].
  destruct IH as (n & W & E & P); [discriminate|]. rewrite edge_sum_cons, parity_cons, <- E, <- P, crossing_turn. unfold ww.
  destruct (goes_up p a b && Rleb 0 (turn a b p)) eqn:U.
  - assert (PU : passes_up p a b) by now apply passes_up_iff. destruct (goes_down p a b && Rltb (turn a b p) 0) eqn:D; [exfalso; apply (not_both p a b PU); now apply passes_down_iff|].
    exists (n + 1)%Z. split; [now constructor|]. rewrite plus_IZR. cbn [b2r xorb]. split; [ring|]. rewrite Z.odd_add. cbn. now destruct (Z.odd n).
  - assert (NU : ~ passes_up p a b) by (rewrite passes_up_iff; congruence). destruct (goes_down p a b && Rltb (turn a b p) 0) eqn:D.
    + exists (n - 1)%Z. split; [apply winds_down; [now apply passes_down_iff|exact W]|]. rewrite minus_IZR. cbn [b2r xorb]. split; [ring|]. rewrite Z.odd_sub. cbn. now destruct (Z.odd n).
    + exists n. split; [apply winds_none; auto; rewrite passes_down_iff; congruence|]. cbn [b2r xorb]. split; [ring|]. now destruct (Z.odd n).
Qed.
Lemma loop_nonempty l : loop l -> l <> []. Proof. intros (p & r & -> & _). discriminate. Qed.
Definition sense (ex : list (R * R)) (s : R) (l : list (R * R)) : Prop := forall p, ~ In p ex -> b2r (mpl_inside l p) = s * edge_sum (ww p) l.
Lemma simple_sense ex l : simple_but ex l -> exists s, (s = 1 \/ s = -1) /\ sense ex s l.
Proof.
  intros [L [H|H]]; [exists 1|exists (-1)]; (split; [tauto|]); intros p Np; destruct (winds_ex p l (loop_nonempty l L)) as (n & W & E & P); rewrite (inside_parity l p L), <- P, <- E; destruct (H p n Np W) as [->| ->]; cbn; lra.
Qed.
(** A sum over distinct points with few terms that are not 0. *)
Lemma few_terms (f : R * R -> R) D ex L : 0 <= D -> NoDup L -> (forall p, In p L -> ~ In p ex -> f p = 0) -> (forall p, In p L -> Rabs (f p) <= D) -> Rabs (sumf f L) <= INR (length ex) * D.
Proof.
  intros PD ND Z B. assert (dec : forall p q : R * R, {p = q} + {p <> q}) by (intros [x z] [x' z']; destruct (Req_EM_T x x'), (Req_EM_T z z'); [left; congruence|right; congruence..]).
  set (q := fun p => if in_dec dec p ex then true else false).
  assert (Q : sumf f L = sumf f (filter q L)). { rewrite sumf_filter. apply sumf_ext. intros p Hp. unfold q. destruct (in_dec dec p ex); [reflexivity|now apply Z]. }
  rewrite Q. apply Rle_trans with (sumf (fun _ => D) (filter q L)); [apply sumf_abs; intros p Hp; apply filter_In in Hp; now apply B|].
  assert (C : forall (l : list (R * R)), sumf (fun _ => D) l = INR (length l) * D) by (induction l as [|x l IH]; [cbn; ring|]; rewrite sumf_cons, IH; cbn [length]; rewrite S_INR; ring).
  rewrite C. apply Rmult_le_compat_r; [exact PD|]. apply le_INR. apply NoDup_incl_length; [now apply NoDup_filter|]. intros p Hp. apply filter_In in Hp. destruct Hp as [_ Hp]. unfold q in Hp. now destruct (in_dec dec p ex).
Qed.
Lemma NoDup_app_intro {A} (l m : list A) : NoDup l -> NoDup m -> (forall x, In x l -> ~ In x m) -> NoDup (l ++ m).
Proof.
  induction 1 as [|x l Nx _ IH]; intros Hm D; [exact Hm|]. cbn [app]. constructor; [|apply IH; [exact Hm|intros; apply D; now right]].
  intro I. apply in_app_iff in I. destruct I as [I|I]; [contradiction|]. apply (D x); [now left|exact I].
Qed.
Lemma mesh_NoDup xs zs : NoDup xs -> NoDup zs -> NoDup (mesh xs zs).
Proof.
  intros Hx Hz. unfold mesh. induction Hx as [|x xs Nx Hx IH]; [constructor|]. cbn [flat_map]. apply NoDup_app_intro; [|exact IH|].
  - apply FinFun.Injective_map_NoDup; [|exact Hz]. intros a b E. now injection E.
  - intros p Hp Hq. apply in_map_iff in Hp. destruct Hp as (z & <- & _). apply in_flat_map in Hq. destruct Hq as (x' & Ix & Hq). apply in_map_iff in Hq. destruct Hq as (z' & E & _). injection E as -> ->. contradiction.
Qed.
Lemma row_NoDup x0 h M : 0 < h -> NoDup (row x0 h M).
Proof. intro Hh. unfold row. apply FinFun.Injective_map_NoDup; [|apply seq_NoDup]. intros i j E. unfold node in E. apply INR_eq. nra. Qed.
Lemma ww_sigma p a b : Rabs (ww p a b) <= Rabs (sigma (snd p) a b).
Proof.
  unfold ww, sigma, goes_up, goes_down, at_or_above. destruct (Rleb (snd p) (snd a)), (Rleb (snd p) (snd b)); cbn [negb andb b2r].
  - rewrite !Rminus_0_r. replace (1 - 1) with 0 by ring. rewrite Rabs_R0. lra.
  - destruct (Rltb (turn a b p) 0); cbn [b2r]; replace (0 - 1) with (-(1)) by ring; rewrite ?Rminus_0_r, ?Rabs_Ropp, ?Rabs_R1, ?Rabs_R0; lra.
  - destruct (Rleb 0 (turn a b p)); cbn [b2r]; rewrite ?Rminus_0_r, ?Rabs_R1, ?Rabs_R0; lra.
  - rewrite !Rminus_0_r. rewrite Rabs_R0. lra.
Qed.
(** Left and right of the boundary the winding number is 0. *)
Lemma ww_beside p l : loop l -> (forall v, In v l -> fst v < fst p) \/ (forall v, In v l -> fst p < fst v) -> edge_sum (ww p) l = 0.
Proof.
  intros L [H|H].
  - rewrite (edge_sum_ext_edges _ (fun _ _ => 0 * 0)); [rewrite edge_sum_scale; ring|]. intros a b E. destruct (edge_In l a b E) as [Ia Ib]. apply H in Ia, Ib.
    unfold ww. destruct (goes_up p a b) eqn:U, (goes_down p a b) eqn:D; cbn [andb b2r]; try ring; [apply goes_up_spec in U; apply goes_down_spec in D; lra| |].
    + apply goes_up_spec in U. destruct (Rleb_spec 0 (turn a b p)) as [Q|Q]; cbn [b2r]; [|ring]. exfalso. unfold turn in Q. nra.
    + apply goes_down_spec in D. destruct (Rltb_spec (turn a b p) 0) as [Q|Q]; cbn [b2r]; [|ring]. exfalso. unfold turn in Q. nra.
  - rewrite (edge_sum_ext_edges _ (fun a b => b2r (Rleb (snd p) (snd b)) - b2r (Rleb (snd p) (snd a)))); [exact (edge_sum_loop (fun v => b2r (Rleb (snd p) (snd v))) l L)|]. intros a b E. destruct (edge_In l a b E) as [Ia Ib]. apply H in Ia, Ib.
    unfold ww, goes_up, goes_down, at_or_above. destruct (Rleb_spec (snd p) (snd a)), (Rleb_spec (snd p) (snd b)); cbn [negb andb b2r]; try ring.
    + destruct (Rltb_spec (turn a b p) 0) as [Q|Q]; cbn [b2r]; [ring|]. exfalso. unfold turn in Q. nra.
    + destruct (Rleb_spec 0 (turn a b p)) as [Q|Q]; cbn [b2r]; [ring|]. exfalso. unfold turn in Q. nra.
Qed.
Lemma crossed_ex z l : l <> [] -> exists n, crossed z l n /\ INR n = edge_sum (fun a b => Rabs (sigma z a b)) l.
Proof.
  induction l as [|a l IH]; [congruence|]. intros _. destruct l as [|b l]; [exists 0%nat; split; [constructor|reflexivity]|].
  destruct IH as (n & W & E); [discriminate|]. rewrite edge_sum_cons, <- E. unfold sigma.
  destruct (Rleb_spec z (snd a)), (Rleb_spec z (snd b)); cbn [b2r].
  - exists n. split; [apply crossed_no; [lra|exact W]|]. replace (1 - 1) with 0 by ring. rewrite Rabs_R0. ring.
  - exists (S n). split; [apply crossed_yes; [lra|exact W]|]. replace (0 - 1) with (-1) by ring. rewrite S_INR, Rabs_left by lra. lra.
  - exists (S n). split; [apply crossed_yes; [lra|exact W]|]. replace (1 - 0) with 1 by ring. rewrite S_INR, Rabs_R1. lra.
  - exists n. split; [apply crossed_no; [lra|exact W]|]. replace (0 - 0) with 0 by ring. rewrite Rabs_R0. ring.
Qed.

Lemma meet_between a b z : snd a < z <= snd b \/ snd b < z <= snd a -> exists t, 0 <= t <= 1 /\ meet a b z = fst a + t * (fst b - fst a).
Proof.
  intro H. exists ((z - snd a) / (snd b - snd a)). split; [|reflexivity]. destruct H as [H|H].
  - split; [apply Rmult_le_pos; [lra|left; apply Rinv_0_lt_compat; lra]|]. apply (Rmult_le_reg_r (snd b - snd a)); [lra|]. unfold Rdiv. rewrite Rmult_assoc, Rinv_l; lra.
  - replace ((z - snd a) / (snd b - snd a)) with ((snd a - z) / (snd a - snd b)) by (field; lra). split; [apply Rmult_le_pos; [lra|left; apply Rinv_0_lt_compat; lra]|]. apply (Rmult_le_reg_r (snd a - snd b)); [lra|]. unfold Rdiv. rewrite Rmult_assoc, Rinv_l; lra.
Qed.

Section Whole.
  Variable l : list (R * R).
  Hypothesis Hl : loop l.
  Variables x0 z0 h al be X Zlo Zhi : R.
  Variables M K c : nat.
  Hypothesis Hh : 0 < h.
  Hypothesis Hal : 0 <= al.
  Hypothesis Hbe : 0 <= be.
  Hypothesis Hx : forall v, In v l -> x0 < fst v < node x0 h M /\ 0 <= fst v <= X.
  Hypothesis Hz : forall v, In v l -> z0 <= snd v < node z0 h K /\ Zlo <= snd v <= Zhi.
  Hypothesis Hlo : z0 <= Zlo.
  Hypothesis HK : Zhi < node z0 h K.
  Hypothesis Hlh : Zlo <= Zhi.
  Hypothesis Hc : crossed_at_most c l.
  Notation xs := (row x0 h M).
  Notation zs := (row z0 h K).
  Notation G := (GG al be).
  Notation g := (gg al be).

  Definition yy (z : R) (a b : R * R) : R :=
    (if Rltb (snd a) (snd b) then node x0 h (upto x0 h (meet a b z)) else node x0 h (below x0 h (meet a b z))) - h / 2.
  Lemma meet_range a b z : edge l a b -> snd a < z <= snd b \/ snd b < z <= snd a -> x0 < meet a b z < node x0 h M /\ 0 <= meet a b z <= X.
  Proof.
    intros E H. destruct (meet_between a b z H) as (t & Ht & ->). destruct (edge_In l a b E) as [Ia Ib]. destruct (Hx a Ia) as [[A1 A2] [A3 A4]]. destruct (Hx b Ib) as [[B1 B2] [B3 B4]].
    assert (Q : fst a <= fst a + t * (fst b - fst a) <= fst b \/ fst b <= fst a + t * (fst b - fst a) <= fst a).
    { destruct (Rle_dec (fst a) (fst b)) as [L|L]; [left|right].
      - pose proof (Rmult_le_pos t (fst b - fst a) ltac:(lra) ltac:(lra)). pose proof (Rmult_le_pos (1 - t) (fst b - fst a) ltac:(lra) ltac:(lra)). lra.
      - pose proof (Rmult_le_pos t (fst a - fst b) ltac:(lra) ltac:(lra)). pose proof (Rmult_le_pos (1 - t) (fst a - fst b) ltac:(lra) ltac:(lra)). lra. }
    lra.
  Qed.
  Lemma upto_max v : x0 <= v < node x0 h M -> (upto x0 h v <= M)%nat.
  Proof. intro H. destruct (upto_spec x0 h Hh v ltac:(lra)) as [A _]. destruct (Nat.le_gt_cases (upto x0 h v) M) as [Y|Y]; [exact Y|]. assert (Q : (M <= upto x0 h v - 1)%nat) by lia. apply (node_le x0 h Hh) in Q. lra. Qed.
  Lemma below_max v : x0 <= v < node x0 h M -> (below x0 h v <= M)%nat.
  Proof. intro H. pose proof (upto_max v H). unfold below. destruct (Req_EM_T _ _); lia. Qed.

  (** One row and one edge. *)
  Lemma row_edge z a b : edge l a b -> sumf (fun x => ww (x, z) a b * (g x * h)) xs = sigma z a b * (G (yy z a b) - G (x0 - h / 2)).
  Proof.
    intro E. unfold sigma, ww, goes_up, goes_down, at_or_above, yy. cbn [snd].
    destruct (Rleb_spec z (snd a)) as [A|A], (Rleb_spec z (snd b)) as [B|B]; cbn [negb andb b2r].
    - rewrite (sumf_ext _ (fun _ => 0)) by (intros; ring). rewrite sumf_zero. ring.
    - (* down *)
      destruct (meet_range a b z E ltac:(lra)) as [R1 R2]. destruct (Rltb_spec (snd a) (snd b)); [lra|].
      rewrite (sumf_ext _ (fun x => -1 * (if Rltb x (meet a b z) then g x * h else 0))).
      + rewrite sumf_scale, (row_sum x0 h _ _ (below x0 h (meet a b z)) M); [|apply below_max; lra|].
        * rewrite cells_tele. ring.
        * intro i. pose proof (below_iff x0 h Hh (meet a b z) i ltac:(lra)) as Q. apply eq_true_iff_eq. rewrite Rltb_true, Nat.ltb_lt. exact Q.
      + intros x _. rewrite (turn_meet a b (x, z)) by lra. cbn [fst snd]. destruct (Rltb_spec ((snd b - snd a) * (meet a b z - x)) 0), (Rltb_spec x (meet a b z)); cbn [b2r]; try ring; exfalso; nra.
    - (* up *)
      destruct (meet_range a b z E ltac:(lra)) as [R1 R2]. destruct (Rltb_spec (snd a) (snd b)); [|lra].
      rewrite (sumf_ext _ (fun x => 1 * (if Rleb x (meet a b z) then g x * h else 0))).
      + rewrite sumf_scale, (row_sum x0 h _ _ (upto x0 h (meet a b z)) M); [|apply upto_max; lra|].
        * rewrite cells_tele. ring.
        * intro i. pose proof (upto_iff x0 h Hh (meet a b z) i ltac:(lra)) as Q. apply eq_true_iff_eq. rewrite Rleb_true, Nat.ltb_lt. exact Q.
      + intros x _. rewrite (turn_meet a b (x, z)) by lra. cbn [fst snd]. destruct (Rleb_spec 0 ((snd b - snd a) * (meet a b z - x))), (Rleb_spec x (meet a b z)); cbn [b2r]; try ring; exfalso; nra.
    - rewrite (sumf_ext _ (fun _ => 0)) by (intros; ring). rewrite sumf_zero. ring.
  Qed.

  Definition cells : R := sumf (fun p => g (fst p) * (h * h)) (filter (mpl_inside l) (mesh xs zs)).
  Definition gap (s : R) (p : R * R) : R := b2r (mpl_inside l p) - s * edge_sum (ww p) l.
  Lemma cells_rows s : cells = s * h * (sumf (fun z => edge_sum (fun a b => sigma z a b * G (meet a b z)) l) zs + sumf (fun z => edge_sum (fun a b => sigma z a b * (G (yy z a b) - G (meet a b z))) l) zs)
    + sumf (fun p => gap s p * (g (fst p) * (h * h))) (mesh xs zs).
  Proof.
    unfold cells. rewrite sumf_filter, !sumf_mesh, <- sumf_plus, <- sumf_scale, <- sumf_plus. apply sumf_ext. intros z _.
    rewrite <- edge_sum_plus.
    rewrite (edge_sum_ext _ (fun a b => sigma z a b * (G (yy z a b) - G (x0 - h / 2)) + G (x0 - h / 2) * (b2r (Rleb z (snd b)) - b2r (Rleb z (snd a))))) by (intros; unfold sigma; ring).
    rewrite edge_sum_plus, edge_sum_scale, (edge_sum_loop (fun v => b2r (Rleb z (snd v))) l Hl), Rmult_0_r, Rplus_0_r.
    rewrite <- (edge_sum_ext_edges (fun a b => sumf (fun x => ww (x, z) a b * (g x * h)) xs)) by (intros; now apply row_edge).
    rewrite <- sumf_edges, <- sumf_scale, <- sumf_plus. apply sumf_ext. intros x _. cbn [fst]. unfold gap.
    rewrite (edge_sum_ext _ (fun a b => (g x * h) * ww (x, z) a b)) by (intros; ring). rewrite edge_sum_scale. destruct (mpl_inside l (x, z)); cbn [b2r]; ring.
  Qed.
  Lemma gap_abs s p : (s = 1 \/ s = -1) -> Rabs (gap s p) <= INR c + 1.
  Proof.
    intro Hs. unfold gap. replace (_ - _) with (b2r (mpl_inside l p) + - (s * edge_sum (ww p) l)) by ring. eapply Rle_trans; [apply Rabs_triang|]. rewrite Rabs_Ropp, Rabs_mult.
    replace (Rabs s) with 1 by (destruct Hs as [->| ->]; [now rewrite Rabs_R1|rewrite Rabs_left; lra]). rewrite Rmult_1_l, Rplus_comm. apply Rplus_le_compat.
    - destruct (crossed_ex (snd p) l (loop_nonempty l Hl)) as (n & W & En). eapply Rle_trans; [apply (edge_sum_abs _ (fun a b => Rabs (sigma (snd p) a b))); intros; apply ww_sigma|]. rewrite <- En. apply le_INR. exact (Hc _ _ W).
    - destruct (mpl_inside l p); cbn [b2r]; rewrite ?Rabs_R1, ?Rabs_R0; lra.
  Qed.
  Lemma gap_outside s p : ~ 0 <= fst p <= X -> gap s p = 0.
  Proof.
    intro N. unfold gap. destruct (mpl_inside l p) eqn:I.
    - exfalso. apply N. destruct p as [x z]. apply mpl_inside_box in I. destruct I as ((v & Iv & A) & (w & Iw & B) & _). destruct (Hx v Iv). destruct (Hx w Iw). cbn [fst] in *. lra.
    - rewrite ww_beside; [cbn [b2r]; ring|exact Hl|]. destruct (Rlt_dec (fst p) 0) as [Q|Q]; [right|left]; intros v Hv; destruct (Hx v Hv); lra.
  Qed.
  Lemma gap_sum ex s : (s = 1 \/ s = -1) -> sense ex s l -> Rabs (sumf (fun p => gap s p * (g (fst p) * (h * h))) (mesh xs zs)) <= INR (length ex) * ((INR c + 1) * ((2 * al * X + be) * (h * h))).
  Proof.
    intros Hs S. pose proof (pos_INR c) as Pc. assert (PX : 0 <= X) by (destruct Hl as (v & r & Ev & _); destruct (Hx v) as [_ Q]; [rewrite Ev; now left|lra]). assert (P1 : 0 <= al * X) by now apply Rmult_le_pos. assert (Hh2 : 0 < h * h) by nra.
    assert (P2 : 0 <= (INR c + 1) * ((2 * al * X + be) * (h * h))) by (apply Rmult_le_pos; [lra|apply Rmult_le_pos; lra]).
    apply few_terms; [exact P2|apply mesh_NoDup; now apply row_NoDup| |].
    - intros p _ Np. unfold gap. rewrite <- (S p Np). ring.
    - intros p _. destruct (Rle_dec 0 (fst p)) as [A|A]; [destruct (Rle_dec (fst p) X) as [B|B]|]; [|rewrite gap_outside, Rmult_0_l, Rabs_R0 by lra; exact P2..].
      rewrite Rabs_mult. apply Rmult_le_compat; try apply Rabs_pos; [now apply gap_abs|]. unfold gg. assert (0 <= al * fst p) by (apply Rmult_le_pos; lra). assert (al * fst p <= al * X) by (apply Rmult_le_compat_l; lra). rewrite Rabs_pos_eq; [apply Rmult_le_compat_r; lra|apply Rmult_le_pos; lra].
  Qed.

  (** The exact integral along an edge. *)
  Definition exact_edge (a b : R * R) : R := (snd b - snd a) * (al * (fst a * fst a + fst a * fst b + fst b * fst b) / 3 + be * (fst a + fst b) / 2).
  Notation ee := (fun z => node z0 h (upto z0 h z) - h / 2 - z).
  Lemma upto_maxz v : z0 <= v < node z0 h K -> (upto z0 h v <= K)%nat.
  Proof. intro H. destruct (upto_spec z0 h Hh v ltac:(lra)) as [A _]. destruct (Nat.le_gt_cases (upto z0 h v) K) as [Y|Y]; [exact Y|]. assert (Q : (K <= upto z0 h v - 1)%nat) by lia. apply (node_le z0 h Hh) in Q. lra. Qed.
  Lemma rows_upto (f : R -> R) v : z0 <= v < node z0 h K -> sumf (fun z => b2r (Rleb z v) * f z) zs = sumf (fun j => f (node z0 h j)) (seq 0 (upto z0 h v)).
  Proof.
    intro H. rewrite <- (row_sum z0 h (fun z => Rleb z v) f (upto z0 h v) K); [|now apply upto_maxz|].
    - apply sumf_ext. intros z _. destruct (Rleb z v); cbn [b2r]; ring.
    - intro i. pose proof (upto_iff z0 h Hh v i ltac:(lra)) as Q. apply eq_true_iff_eq. rewrite Rleb_true, Nat.ltb_lt. exact Q.
  Qed.
  Lemma edge_bound a b : edge l a b -> Rabs (h * sumf (fun z => sigma z a b * G (meet a b z)) zs - exact_edge a b - (G (fst b) * ee (snd b) - G (fst a) * ee (snd a))) <= h / 2 * Rabs (G (fst b) - G (fst a)).
  Proof.
    intro E. destruct (edge_In l a b E) as [Ia Ib]. destruct (Hz a Ia) as [Za _]. destruct (Hz b Ib) as [Zb _]. destruct (Hx a Ia) as [_ Xa]. destruct (Hx b Ib) as [_ Xb].
    destruct (Req_dec (snd a) (snd b)) as [Eq|Ne].
    - rewrite (sumf_ext _ (fun _ => 0)) by (intros; unfold sigma; rewrite Eq; ring). rewrite sumf_zero. unfold exact_edge. rewrite Eq.
      replace (h * 0 - _ - _) with (- (ee (snd b) * (G (fst b) - G (fst a)))) by ring. rewrite Rabs_Ropp, Rabs_mult. apply Rmult_le_compat_r; [apply Rabs_pos|]. apply upto_near; [exact Hh|lra].
    - set (q := (fst b - fst a) / (snd b - snd a)). set (p := fst a - q * snd a).
      assert (Me : forall z, meet a b z = p + q * z) by (intro z; unfold meet, p, q; field; lra).
      assert (Pa : p + q * snd a = fst a) by (unfold p; ring). assert (Pb : p + q * snd b = fst b) by (unfold p, q; field; lra).
      pose proof (edge_rows z0 h al be p q Hh Hal Hbe (snd a) (snd b) ltac:(lra) ltac:(lra) ltac:(lra) ltac:(lra)) as B.
      unfold ff at 3 4 5 6 in B. rewrite Pa, Pb in B.
      replace (FF al be p q (snd b) - FF al be p q (snd a)) with (exact_edge a b) in B.
      2:{ unfold exact_edge. rewrite <- Pa, <- Pb. unfold FF. field. }
      rewrite <- (rows_upto (ff al be p q) (snd b) ltac:(lra)), <- (rows_upto (ff al be p q) (snd a) ltac:(lra)) in B.
      rewrite (sumf_ext _ (fun z => b2r (Rleb z (snd b)) * ff al be p q z + -1 * (b2r (Rleb z (snd a)) * ff al be p q z))) by (intros; unfold sigma, ff; rewrite Me; ring).
      rewrite sumf_plus, sumf_scale. replace (_ + -1 * _) with (sumf (fun z => b2r (Rleb z (snd b)) * ff al be p q z) zs - sumf (fun z => b2r (Rleb z (snd a)) * ff al be p q z) zs) by ring. exact B.
  Qed.
  Lemma rows_bound : Rabs (h * sumf (fun z => edge_sum (fun a b => sigma z a b * G (meet a b z)) l) zs - edge_sum exact_edge l) <= h / 2 * edge_sum (fun a b => Rabs (G (fst b) - G (fst a))) l.
  Proof.
    rewrite sumf_edges, <- !edge_sum_scale. rewrite <- (Rminus_0_r (_ - _)), <- (edge_sum_loop (fun v => G (fst v) * ee (snd v)) l Hl).
    match goal with |- Rabs (edge_sum ?f l - edge_sum ?g l - edge_sum ?k l) <= _ => replace (edge_sum f l - edge_sum g l - edge_sum k l) with (edge_sum (fun a b => f a b + (-1 * g a b + -1 * k a b)) l) by (rewrite !edge_sum_plus, !edge_sum_scale; ring) end.
    apply edge_sum_abs. intros a b E. pose proof (edge_bound a b E) as B. cbv beta in *. replace (_ + _) with (h * sumf (fun z => sigma z a b * G (meet a b z)) zs - exact_edge a b - (G (fst b) * ee (snd b) - G (fst a) * ee (snd a))) by ring. exact B.
  Qed.

  (** The error of the ends of the rows. *)
  Definition lip : R := 2 * al * X + al * h / 2 + be.
  Lemma G_lip m y : 0 <= m <= X -> Rabs (y - m) <= h / 2 -> Rabs (G y - G m) <= h / 2 * lip.
  Proof.
    intros Hm Hy. replace (G y - G m) with ((y - m) * (al * (y - m) + (2 * al * m + be))) by (unfold GG; ring). rewrite Rabs_mult. apply Rmult_le_compat; try apply Rabs_pos; [exact Hy|].
    eapply Rle_trans; [apply Rabs_triang|]. rewrite Rabs_mult, (Rabs_pos_eq al) by exact Hal. rewrite (Rabs_pos_eq (2 * al * m + be)) by nra. unfold lip. assert (al * Rabs (y - m) <= al * (h / 2)) by now apply Rmult_le_compat_l. assert (al * m <= al * X) by (apply Rmult_le_compat_l; lra). lra.
  Qed.
  Lemma lip_pos : 0 <= lip.
  Proof. unfold lip. destruct Hl as (v & r & -> & _). destruct (Hx v (or_introl eq_refl)) as [_ H]. nra. Qed.
  Lemma row_error z : Rabs (edge_sum (fun a b => sigma z a b * (G (yy z a b) - G (meet a b z))) l) <= h / 2 * lip * (INR c * (b2r (Rleb z Zhi) - b2r (Rleb z Zlo))).
  Proof.
    pose proof lip_pos as LP.
    assert (E1 : Rabs (edge_sum (fun a b => sigma z a b * (G (yy z a b) - G (meet a b z))) l) <= h / 2 * lip * edge_sum (fun a b => Rabs (sigma z a b)) l).
    { rewrite <- edge_sum_scale. apply edge_sum_abs. intros a b E. rewrite Rabs_mult, Rmult_comm. unfold sigma. destruct (Rleb_spec z (snd a)) as [A|A], (Rleb_spec z (snd b)) as [B|B]; cbn [b2r].
      - replace (1 - 1) with 0 by ring. rewrite Rabs_R0. lra.
      - apply Rmult_le_compat_r; [apply Rabs_pos|]. destruct (meet_range a b z E ltac:(lra)) as [R1 R2]. apply G_lip; [exact R2|]. unfold yy. destruct (Rltb_spec (snd a) (snd b)); [lra|]. apply below_near; [exact Hh|lra].
      - apply Rmult_le_compat_r; [apply Rabs_pos|]. destruct (meet_range a b z E ltac:(lra)) as [R1 R2]. apply G_lip; [exact R2|]. unfold yy. destruct (Rltb_spec (snd a) (snd b)); [|lra]. apply upto_near; [exact Hh|lra].
      - replace (0 - 0) with 0 by ring. rewrite Rabs_R0. lra. }
    apply Rle_trans with (1 := E1). apply Rmult_le_compat_l; [apply Rmult_le_pos; lra|].
    destruct (crossed_ex z l (loop_nonempty l Hl)) as (n & W & En).
    destruct (Rleb_spec z Zhi) as [A|A], (Rleb_spec z Zlo) as [B|B]; cbn [b2r].
    - rewrite (edge_sum_ext_edges _ (fun _ _ => 0 * 0)); [rewrite edge_sum_scale; lra|]. intros a b E. destruct (edge_In l a b E) as [Ia Ib]. destruct (Hz a Ia) as [_ Za]. destruct (Hz b Ib) as [_ Zb]. unfold sigma. destruct (Rleb_spec z (snd a)); [|lra]. destruct (Rleb_spec z (snd b)); [|lra]. cbn [b2r]. replace (1 - 1) with 0 by ring. rewrite Rabs_R0. ring.
    - rewrite <- En. specialize (Hc z n W). apply le_INR in Hc. lra.
    - lra.
    - rewrite (edge_sum_ext_edges _ (fun _ _ => 0 * 0)); [rewrite edge_sum_scale; lra|]. intros a b E. destruct (edge_In l a b E) as [Ia Ib]. destruct (Hz a Ia) as [_ Za]. destruct (Hz b Ib) as [_ Zb]. unfold sigma. destruct (Rleb_spec z (snd a)); [lra|]. destruct (Rleb_spec z (snd b)); [lra|]. cbn [b2r]. replace (0 - 0) with 0 by ring. rewrite Rabs_R0. ring.
  Qed.
  Lemma ends_bound : Rabs (h * sumf (fun z => edge_sum (fun a b => sigma z a b * (G (yy z a b) - G (meet a b z))) l) zs) <= h / 2 * lip * INR c * (Zhi - Zlo + h).
  Proof.
    rewrite Rabs_mult, (Rabs_pos_eq h) by lra. pose proof lip_pos as LP. pose proof (pos_INR c) as Pc.
    apply Rle_trans with (h * sumf (fun z => h / 2 * lip * (INR c * (b2r (Rleb z Zhi) - b2r (Rleb z Zlo)))) zs); [apply Rmult_le_compat_l; [lra|]; apply sumf_abs; intros; apply row_error|].
    rewrite (sumf_ext _ (fun z => h / 2 * lip * INR c * (b2r (Rleb z Zhi) * 1) + - (h / 2 * lip * INR c) * (b2r (Rleb z Zlo) * 1))) by (intros; ring).
    rewrite sumf_plus, !sumf_scale, (rows_upto (fun _ => 1) Zhi), (rows_upto (fun _ => 1) Zlo) by lra.
    assert (Cn : forall k, sumf (fun _ : nat => 1) (seq 0 k) = INR k) by (induction k as [|k IH]; [reflexivity|]; rewrite seq_S, sumf_app, IH, S_INR; cbn; ring). rewrite !Cn.
    pose proof (upto_near z0 h Hh Zhi ltac:(lra)) as N1. pose proof (upto_near z0 h Hh Zlo ltac:(lra)) as N2. unfold node in N1, N2. apply abs_inv in N1, N2.
    replace (h * _) with (h / 2 * lip * INR c * (h * INR (upto z0 h Zhi) - h * INR (upto z0 h Zlo))) by ring. apply Rmult_le_compat_l; [repeat apply Rmult_le_pos; lra|]. lra.
  Qed.

  (** The sum over the cells against the boundary integral. *)
  Lemma cells_bound ex s : (s = 1 \/ s = -1) -> sense ex s l ->
    Rabs (s * cells - edge_sum exact_edge l) <= h / 2 * (edge_sum (fun a b => Rabs (G (fst b) - G (fst a))) l + lip * INR c * (Zhi - Zlo + h)) + INR (length ex) * ((INR c + 1) * ((2 * al * X + be) * (h * h))).
  Proof.
    intros Hs S. rewrite (cells_rows s). set (A := sumf _ zs). set (B := sumf (fun z => edge_sum (fun a b => sigma z a b * (G (yy z a b) - G (meet a b z))) l) zs). pose proof (gap_sum ex s Hs S) as Gp. set (D := sumf _ (mesh xs zs)) in *.
    assert (s * s = 1) by (destruct Hs as [->| ->]; ring). replace (s * (s * h * (A + B) + D)) with (s * s * (h * A + h * B) + s * D) by ring. rewrite H, Rmult_1_l.
    replace (h * A + h * B + s * D - edge_sum exact_edge l) with ((h * A - edge_sum exact_edge l) + h * B + s * D) by ring. eapply Rle_trans; [apply Rabs_triang|]. apply Rplus_le_compat.
    - eapply Rle_trans; [apply Rabs_triang|]. pose proof rows_bound. fold A in H0. pose proof ends_bound. fold B in H1. lra.
    - rewrite Rabs_mult. replace (Rabs s) with 1 by (destruct Hs as [->| ->]; [now rewrite Rabs_R1|rewrite Rabs_left; lra]). now rewrite Rmult_1_l.
  Qed.
End Whole.
