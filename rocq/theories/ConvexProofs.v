(** Lemmas about convex polygons and the crossing test. *)
From Coq Require Import Permutation.
From Verif Require Import Base Geometry SpecGeometry GeometryProofs Space SpecSpace SpaceProofs SpecConvex.
Open Scope R_scope.

(** ** Parity over edges *)
Fixpoint parity (f : R * R -> R * R -> bool) (l : list (R * R)) : bool :=
  match l with p :: ((q :: _) as r) => xorb (f p q) (parity f r) | _ => false end.
Lemma parity_cons f p q l : parity f (p :: q :: l) = xorb (f p q) (parity f (q :: l)).
Proof. reflexivity. Qed.
Lemma parity_ext f g l : (forall p q, edge l p q -> f p q = g p q) -> parity f l = parity g l.
Proof.
  induction l as [|p [|q l] IH]; intro H; [reflexivity..|]. rewrite !parity_cons, (H p q) by (now exists [], l). f_equal. apply IH.
  intros a b (l1 & l2 & E). apply H. exists (p :: l1), l2. cbn. now rewrite E.
Qed.
Lemma parity_xor f g l : parity (fun p q => xorb (f p q) (g p q)) l = xorb (parity f l) (parity g l).
Proof.
  induction l as [|p [|q l] IH]; [reflexivity..|]. rewrite !parity_cons, IH.
  destruct (f p q), (g p q), (parity f (q :: l)), (parity g (q :: l)); reflexivity.
Qed.
Lemma crossings_parity p first : forall rest v0 b,
  crossings p first v0 rest b = xorb b (xorb (parity (crossing p) (v0 :: rest)) (crossing p (last rest v0) first)).
Proof.
  induction rest as [|v1 r IH]; intros v0 b; cbn [crossings]; [destruct b; cbn; now destruct (crossing p v0 first)|].
  rewrite IH, parity_cons, last_cons. destruct b, (crossing p v0 v1), (parity (crossing p) (v1 :: r)), (crossing p (last r v1) first); reflexivity.
Qed.
Lemma crossing_self p v : crossing p v v = false.
Proof. unfold crossing. now rewrite Bool.eqb_reflx. Qed.
Lemma inside_parity l p : loop l -> mpl_inside l p = parity (crossing p) l.
Proof.
  intros (v & r & -> & L). cbn [mpl_inside]. rewrite crossings_parity, L, crossing_self, xorb_false_l, xorb_false_r. reflexivity.
Qed.
Lemma edge_inv p q l a b : edge (p :: q :: l) a b -> (a = p /\ b = q) \/ edge (q :: l) a b.
Proof.
  intros ([|x l1] & l2 & E); cbn in E; [injection E as -> -> _; now left|]. injection E as -> E. right. now exists l1, l2.
Qed.
Lemma edge_here p q l : edge (p :: q :: l) p q. Proof. now exists [], l. Qed.
Lemma edge_next p l a b : edge l a b -> edge (p :: l) a b.
Proof. intros (l1 & l2 & ->). now exists (p :: l1), l2. Qed.
Lemma edge_single p a b : ~ edge [p] a b. Proof. intros ([|? [|? ?]] & ? & E); discriminate. Qed.
Lemma edge_nil a b : ~ edge [] a b. Proof. intros ([|? ?] & ? & E); discriminate. Qed.
Lemma edge_ends p l a b : edge (p :: l) a b -> In a (removelast (p :: l)) /\ In b l.
Proof.
  revert p. induction l as [|q l IH]; intros p H; [now apply edge_single in H|].
  apply edge_inv in H. destruct H as [[-> ->]|H]; [split; now left|]. destruct (IH q H) as [A B].
  split; [change (In a (p :: removelast (q :: l))); now right|now right].
Qed.
(** a predicate that holds of edges with at most one end (or start) has parity "is there such an edge" *)
Lemma parity_unique_end f p l : NoDup l -> (forall a b c d, edge (p :: l) a b -> edge (p :: l) c d -> f a b = true -> f c d = true -> b = d) ->
  parity f (p :: l) = true <-> exists a b, edge (p :: l) a b /\ f a b = true.
Proof.
  revert p. induction l as [|q l IH]; intros p N U.
  - cbn. split; [discriminate|]. intros (a & b & H & _). now apply edge_single in H.
  - inversion N as [|? ? Nq N']; subst. rewrite parity_cons.
    assert (U' : forall a b c d, edge (q :: l) a b -> edge (q :: l) c d -> f a b = true -> f c d = true -> b = d).
    { intros a b c d H1 H2. apply U; now apply edge_next. }
    specialize (IH q N' U'). destruct (f p q) eqn:Epq.
    + split; [intros _; exists p, q; split; [apply edge_here|exact Epq]|]. intros _.
      destruct (parity f (q :: l)) eqn:Er; [|reflexivity]. exfalso. destruct (proj1 IH eq_refl) as (a & b & H & Hf).
      assert (q = b) by (apply (U p q a b); auto using edge_here, edge_next). subst b. apply edge_ends in H. tauto.
    + rewrite xorb_false_l, IH. split; intros (a & b & H & Hf).
      * exists a, b. split; [now apply edge_next|exact Hf].
      * apply edge_inv in H. destruct H as [[-> ->]|H]; [congruence|now exists a, b].
Qed.
Lemma parity_unique_start f p l : NoDup (removelast (p :: l)) ->
  (forall a b c d, edge (p :: l) a b -> edge (p :: l) c d -> f a b = true -> f c d = true -> a = c) ->
  parity f (p :: l) = true <-> exists a b, edge (p :: l) a b /\ f a b = true.
Proof.
  revert p. induction l as [|q l IH]; intros p N U.
  - cbn. split; [discriminate|]. intros (a & b & H & _). now apply edge_single in H.
  - change (removelast (p :: q :: l)) with (p :: removelast (q :: l)) in N. inversion N as [|? ? Nq N']; subst. rewrite parity_cons.
    assert (U' : forall a b c d, edge (q :: l) a b -> edge (q :: l) c d -> f a b = true -> f c d = true -> a = c).
    { intros a b c d H1 H2. apply U; now apply edge_next. }
    specialize (IH q N' U'). destruct (f p q) eqn:Epq.
    + split; [intros _; exists p, q; split; [apply edge_here|exact Epq]|]. intros _.
      destruct (parity f (q :: l)) eqn:Er; [|reflexivity]. exfalso. destruct (proj1 IH eq_refl) as (a & b & H & Hf).
      assert (p = a) by (apply (U p q a b); auto using edge_here, edge_next). subst a. apply edge_ends in H. tauto.
    + rewrite xorb_false_l, IH. split; intros (a & b & H & Hf).
      * exists a, b. split; [now apply edge_next|exact Hf].
      * apply edge_inv in H. destruct H as [[-> ->]|H]; [congruence|now exists a, b].
Qed.
Lemma nodup_removelast (p : R * R) r : last r p = p -> NoDup r -> NoDup (removelast (p :: r)).
Proof.
  intros L N. destruct (exists_last (l := p :: r)) as (m & x & E); [discriminate|]. rewrite E, removelast_last.
  destruct m as [|y m]; [constructor|]. cbn in E. injection E as -> E. subst r. rewrite last_last in L. subst x.
  apply NoDup_remove in N. rewrite app_nil_r in N. constructor; tauto.
Qed.

(** ** Flags along a loop *)
Lemma some_step (f : R * R -> bool) l : forall p, f p = false -> (exists q, In q l /\ f q = true) -> exists a b, edge (p :: l) a b /\ f a = false /\ f b = true.
Proof.
  induction l as [|x l IH]; intros p Hp (q & Hq & Fq); [destruct Hq|].
  destruct (f x) eqn:Fx; [exists p, x; auto using edge_here|].
  destruct Hq as [->|Hq]; [congruence|]. destruct (IH x Fx) as (a & b & H & F); [eauto|]. exists a, b. split; [now apply edge_next|exact F].
Qed.
Lemma loop_steps (f : R * R -> bool) l : loop l -> (exists q, In q l /\ f q = true) -> (exists q, In q l /\ f q = false) ->
  exists a b, edge l a b /\ f a = false /\ f b = true.
Proof.
  intros (p & r & -> & L) (q & Hq & Fq) (s & Hs & Fs). destruct (f p) eqn:Fp.
  - (* from s to the end, which is p *)
    destruct Hs as [->|Hs]; [congruence|]. apply in_split in Hs. destruct Hs as (l1 & l2 & E).
    destruct (some_step f l2 s Fs) as (a & b & (m1 & m2 & Em) & F).
    + exists p. split; [|exact Fp]. rewrite E in L. destruct l2 as [|y l2]; [rewrite last_last in L; subst; congruence|].
      rewrite <- L. assert (X : last (l1 ++ s :: y :: l2) p = last (y :: l2) p).
      { clear. revert p. induction l1 as [|z l1 IH]; intro p; [reflexivity|]. cbn [app]. rewrite last_cons, IH, !last_cons. reflexivity. }
      rewrite X. destruct (exists_last (l := y :: l2)) as (m & w & Ew); [discriminate|]. rewrite Ew, last_last. apply in_or_app. right; now left.
    + exists a, b. split; [|exact F]. rewrite E. exists (p :: l1 ++ m1), m2. cbn. now rewrite <- app_assoc, Em.
  - apply some_step; [exact Fp|]. destruct Hq as [->|Hq]; [congruence|]. eauto.
Qed.
Lemma loop_steps_down (f : R * R -> bool) l : loop l -> (exists q, In q l /\ f q = true) -> (exists q, In q l /\ f q = false) ->
  exists a b, edge l a b /\ f a = true /\ f b = false.
Proof.
  intros H (q & Hq & Fq) (s & Hs & Fs). destruct (loop_steps (fun v => negb (f v)) l H) as (a & b & E & A & B).
  - exists s. now rewrite Fs.
  - exists q. now rewrite Fq.
  - exists a, b. split; [exact E|]. now destruct (f a), (f b).
Qed.

(** ** Convex polygons *)
Lemma turn_cyclic a b c : turn a b c = turn b c a. Proof. unfold turn. ring. Qed.
Lemma turn_aab a b : turn a b a = 0 /\ turn a b b = 0. Proof. unfold turn. split; ring. Qed.
Lemma pt_eq_dec (a b : R * R) : {a = b} + {a <> b}.
Proof. destruct a as [a1 a2], b as [b1 b2]. destruct (Req_EM_T a1 b1), (Req_EM_T a2 b2); [left; congruence|right; congruence..]. Qed.
Lemma convex_loop l : convex_polygon l -> loop l.
Proof. intros (_ & (p & r & E & L & _) & _). exists p, r. auto. Qed.
Lemma convex_vertex l c : convex_polygon l -> In c l -> in_polygon l c.
Proof.
  intros (_ & _ & H) Hc a b E. destruct (pt_eq_dec c a) as [->|]; [rewrite (proj1 (turn_aab a b)); lra|].
  destruct (pt_eq_dec c b) as [->|]; [rewrite (proj2 (turn_aab a b)); lra|]. left. now apply H.
Qed.
Lemma convex_star l p : in_polygon l p -> star_shaped l p.
Proof. intro H. left. intros a b E. rewrite turn_cyclic. now apply H. Qed.
Lemma convex_area l : convex_polygon l -> 0 < edge_sum crs l.
Proof.
  intros C. pose proof C as (Len & (p & r & E & L & N) & H). rewrite <- (turn_sum l p (convex_loop l C)).
  destruct r as [|x [|y [|z r]]]; subst l; cbn [length] in Len; try lia.
  assert (In p (z :: r)).
  { rewrite !last_cons in L. destruct (exists_last (l := z :: r)) as (m & w & Ew); [discriminate|]. rewrite Ew. apply in_or_app. right; left.
    rewrite <- L, <- (last_cons z r p), Ew, last_last. reflexivity. }
  assert (P : 0 < turn p x y).
  { rewrite turn_cyclic. inversion N as [|? ? N1 N2]; subst. inversion N2 as [|? ? N3 N4]; subst. apply H.
    - exists [p], (z :: r). reflexivity.
    - now left.
    - intros ->. apply N1. now right.
    - intros ->. now apply N3. }
  assert (Q : 0 <= edge_sum (turn p) (y :: z :: r)).
  { apply edge_sum_edges. intros a b Eab. rewrite turn_cyclic. apply (convex_vertex _ p C (or_introl eq_refl)). now do 2 apply edge_next. }
  rewrite (edge_sum_cons (turn p) p x), (edge_sum_cons (turn p) x y).
  assert (turn p p x = 0) by (unfold turn; ring). lra.
Qed.

(** The point where an edge meets a horizontal line. *)
Definition meet (a b : R * R) (y : R) : R := fst a + (y - snd a) / (snd b - snd a) * (fst b - fst a).
Lemma turn_meet a b p : snd b - snd a <> 0 -> turn a b p = (snd b - snd a) * (meet a b (snd p) - fst p).
Proof. intro H. unfold turn, meet. field. exact H. Qed.
Lemma turn_at_meet e f a b y : snd b - snd a <> 0 ->
  turn e f (meet a b y, y) = (snd b - y) / (snd b - snd a) * turn e f a + (y - snd a) / (snd b - snd a) * turn e f b.
Proof. intro H. unfold turn, meet; cbn [fst snd]. field. exact H. Qed.
Lemma turn_affine_x e f x x' y : turn e f (x', y) = turn e f (x, y) - (snd f - snd e) * (x' - x).
Proof. unfold turn; cbn [fst snd]. ring. Qed.

Definition at_or_above (p v : R * R) : bool := Rleb (snd p) (snd v).
Definition goes_up (p a b : R * R) : bool := negb (at_or_above p a) && at_or_above p b.
Definition goes_down (p a b : R * R) : bool := at_or_above p a && negb (at_or_above p b).
Lemma goes_up_spec p a b : goes_up p a b = true <-> snd a < snd p <= snd b.
Proof. unfold goes_up, at_or_above. destruct (Rleb_spec (snd p) (snd a)), (Rleb_spec (snd p) (snd b)); cbn; split; intro; try discriminate; try reflexivity; lra. Qed.
Lemma goes_down_spec p a b : goes_down p a b = true <-> snd b < snd p <= snd a.
Proof. unfold goes_down, at_or_above. destruct (Rleb_spec (snd p) (snd a)), (Rleb_spec (snd p) (snd b)); cbn; split; intro; try discriminate; try reflexivity; lra. Qed.
Lemma crossing_turn p a b : crossing p a b = xorb (goes_up p a b && Rleb 0 (turn a b p)) (goes_down p a b && Rltb (turn a b p) 0).
Proof.
  unfold crossing, goes_up, goes_down, at_or_above, turn.
  destruct (Rleb_spec (snd p) (snd a)), (Rleb_spec (snd p) (snd b)); cbn [Bool.eqb negb andb xorb]; try reflexivity.
  - destruct (Rleb_spec ((fst b - fst p) * (snd a - snd b)) ((snd b - snd p) * (fst a - fst b))),
      (Rltb_spec ((fst b - fst a) * (snd p - snd a) - (fst p - fst a) * (snd b - snd a)) 0); try reflexivity; exfalso; nra.
  - destruct (Rleb_spec ((fst b - fst p) * (snd a - snd b)) ((snd b - snd p) * (fst a - fst b))),
      (Rleb_spec 0 ((fst b - fst a) * (snd p - snd a) - (fst p - fst a) * (snd b - snd a))); try reflexivity; exfalso; nra.
Qed.

Section Convex.
Variable l : list (R * R).
Hypothesis C : convex_polygon l.
Lemma edge_vertices a b : edge l a b -> In a l /\ In b l. Proof. apply edge_In. Qed.
Lemma frac_range y u v : v < y <= u -> 0 < (y - v) / (u - v) <= 1 /\ 0 <= (u - y) / (u - v) < 1.
Proof.
  intro H. assert (D : 0 < u - v) by lra. assert (E : (y - v) / (u - v) + (u - y) / (u - v) = 1) by (field; lra).
  assert (0 < (y - v) / (u - v)) by (apply Rdiv_lt_0_compat; lra).
  assert (0 <= (u - y) / (u - v)) by (apply Rmult_le_pos; [lra|left; now apply Rinv_0_lt_compat]). lra.
Qed.
(** the region contains the points where edges meet a horizontal line *)
Lemma meet_up e f a b y : edge l e f -> edge l a b -> snd a < y <= snd b -> 0 <= turn e f (meet a b y, y).
Proof.
  intros Hef Hab Hy. rewrite turn_at_meet by lra. destruct (frac_range y (snd b) (snd a) Hy) as [A B].
  destruct (edge_vertices a b Hab) as [Ia Ib]. pose proof (convex_vertex l a C Ia e f Hef). pose proof (convex_vertex l b C Ib e f Hef).
  apply Rplus_le_le_0_compat; apply Rmult_le_pos; lra.
Qed.
Lemma meet_down e f a b y : edge l e f -> edge l a b -> snd b < y <= snd a -> 0 <= turn e f (meet a b y, y).
Proof.
  intros Hef Hab Hy. rewrite turn_at_meet by lra. destruct (frac_range y (snd a) (snd b) Hy) as [A B].
  destruct (edge_vertices a b Hab) as [Ia Ib]. pose proof (convex_vertex l a C Ia e f Hef). pose proof (convex_vertex l b C Ib e f Hef).
  replace ((snd b - y) / (snd b - snd a)) with ((y - snd b) / (snd a - snd b)) by (field; lra).
  replace ((y - snd a) / (snd b - snd a)) with ((snd a - y) / (snd a - snd b)) by (field; lra).
  apply Rplus_le_le_0_compat; apply Rmult_le_pos; lra.
Qed.
Lemma zero_sum a b x y : 0 < a -> 0 <= b -> 0 <= x -> 0 <= y -> a * x + b * y = 0 -> x = 0.
Proof. intros. assert (0 <= a * x) by (apply Rmult_le_pos; lra). assert (0 <= b * y) by (apply Rmult_le_pos; lra). assert (a * x = 0) by lra. apply Rmult_integral in H6. lra. Qed.
Lemma on_line a b c : edge l a b -> In c l -> turn a b c = 0 -> c = a \/ c = b.
Proof.
  intros E Hc T. destruct (pt_eq_dec c a); [now left|]. destruct (pt_eq_dec c b); [now right|].
  destruct C as (_ & _ & H). specialize (H a b c E Hc n n0). lra.
Qed.
Lemma up_unique p a b c d : edge l a b -> edge l c d -> goes_up p a b = true -> goes_up p c d = true -> b = d.
Proof.
  rewrite !goes_up_spec. intros Hab Hcd Y1 Y2.
  pose proof (meet_up a b c d (snd p) Hab Hcd Y2) as T1. pose proof (meet_up c d a b (snd p) Hcd Hab Y1) as T2.
  rewrite turn_meet in T1, T2 by lra. cbn [fst snd] in T1, T2.
  assert (meet a b (snd p) = meet c d (snd p)) by nra.
  assert (Z : turn a b (meet c d (snd p), snd p) = 0) by (rewrite turn_meet by lra; cbn [fst snd]; rewrite H; ring).
  rewrite turn_at_meet in Z by lra. destruct (frac_range _ _ _ Y2) as [A B].
  destruct (edge_vertices c d Hcd) as [Ic Id]. pose proof (convex_vertex l c C Ic a b Hab). pose proof (convex_vertex l d C Id a b Hab).
  assert (turn a b d = 0) by (apply (zero_sum ((snd p - snd c) / (snd d - snd c)) ((snd d - snd p) / (snd d - snd c)) _ (turn a b c)); lra).
  destruct (on_line a b d Hab Id H2) as [->|]; [lra|auto].
Qed.
Lemma down_unique p a b c d : edge l a b -> edge l c d -> goes_down p a b = true -> goes_down p c d = true -> a = c.
Proof.
  rewrite !goes_down_spec. intros Hab Hcd Y1 Y2.
  pose proof (meet_down a b c d (snd p) Hab Hcd Y2) as T1. pose proof (meet_down c d a b (snd p) Hcd Hab Y1) as T2.
  rewrite turn_meet in T1, T2 by lra. cbn [fst snd] in T1, T2.
  assert (meet a b (snd p) = meet c d (snd p)) by nra.
  assert (Z : turn a b (meet c d (snd p), snd p) = 0) by (rewrite turn_meet by lra; cbn [fst snd]; rewrite H; ring).
  rewrite turn_at_meet in Z by lra. destruct (frac_range _ _ _ Y2) as [A B].
  replace ((snd d - snd p) / (snd d - snd c)) with ((snd p - snd d) / (snd c - snd d)) in Z by (field; lra).
  replace ((snd p - snd c) / (snd d - snd c)) with ((snd c - snd p) / (snd c - snd d)) in Z by (field; lra).
  destruct (edge_vertices c d Hcd) as [Ic Id]. pose proof (convex_vertex l c C Ic a b Hab). pose proof (convex_vertex l d C Id a b Hab).
  assert (turn a b c = 0) by (apply (zero_sum ((snd p - snd d) / (snd c - snd d)) ((snd c - snd p) / (snd c - snd d)) _ (turn a b d)); lra).
  destruct (on_line a b c Hab Ic H2) as [ | -> ]; [auto|lra].
Qed.
Lemma inside_edges p : mpl_inside l p =
  xorb (parity (fun a b => goes_up p a b && Rleb 0 (turn a b p)) l) (parity (fun a b => goes_down p a b && Rltb (turn a b p) 0) l).
Proof. rewrite (inside_parity l p (convex_loop l C)), <- parity_xor. apply parity_ext. intros. apply crossing_turn. Qed.
Lemma parity_up p : parity (fun a b => goes_up p a b && Rleb 0 (turn a b p)) l = true <->
  exists a b, edge l a b /\ goes_up p a b = true /\ 0 <= turn a b p.
Proof.
  pose proof C as (_ & (v & r & E & L & N) & _). rewrite E. rewrite (parity_unique_end _ v r N).
  - split; intros (a & b & H & F); exists a, b; split; try exact H; [apply andb_prop in F; destruct F as [F1 F2]; apply Rleb_true in F2; auto|].
    destruct F as [-> F2]. now apply Rleb_true.
  - rewrite <- E. intros a b c d H1 H2 F1 F2. apply andb_prop in F1, F2. apply (up_unique p a b c d); tauto.
Qed.
Lemma parity_down p : parity (fun a b => goes_down p a b && Rltb (turn a b p) 0) l = true <->
  exists a b, edge l a b /\ goes_down p a b = true /\ turn a b p < 0.
Proof.
  pose proof C as (_ & (v & r & E & L & N) & _). rewrite E. rewrite (parity_unique_start _ v r (nodup_removelast v r L N)).
  - split; intros (a & b & H & F); exists a, b; split; try exact H; [apply andb_prop in F; destruct F as [F1 F2]; apply Rltb_true in F2; auto|].
    destruct F as [-> F2]. now apply Rltb_true.
  - rewrite <- E. intros a b c d H1 H2 F1 F2. apply andb_prop in F1, F2. apply (down_unique p a b c d); tauto.
Qed.
Lemma exists_up p : (exists v, In v l /\ snd p <= snd v) -> (exists v, In v l /\ snd v < snd p) -> exists a b, edge l a b /\ goes_up p a b = true.
Proof.
  intros (v & Hv & V) (w & Hw & W). destruct (loop_steps (at_or_above p) l (convex_loop l C)) as (a & b & E & A & B).
  - exists v. split; [exact Hv|]. now apply Rleb_true.
  - exists w. split; [exact Hw|]. unfold at_or_above. destruct (Rleb_spec (snd p) (snd w)); [lra|reflexivity].
  - exists a, b. split; [exact E|]. unfold goes_up. now rewrite A, B.
Qed.
Lemma exists_down p : (exists v, In v l /\ snd p <= snd v) -> (exists v, In v l /\ snd v < snd p) -> exists a b, edge l a b /\ goes_down p a b = true.
Proof.
  intros (v & Hv & V) (w & Hw & W). destruct (loop_steps_down (at_or_above p) l (convex_loop l C)) as (a & b & E & A & B).
  - exists v. split; [exact Hv|]. now apply Rleb_true.
  - exists w. split; [exact Hw|]. unfold at_or_above. destruct (Rleb_spec (snd p) (snd w)); [lra|reflexivity].
  - exists a, b. split; [exact E|]. unfold goes_down. now rewrite A, B.
Qed.
Lemma max_snd (m : list (R * R)) : m <> [] -> exists v, In v m /\ forall w, In w m -> snd w <= snd v.
Proof.
  induction m as [|x m IH]; [congruence|]. intros _. destruct m as [|y m]; [exists x; split; [now left|intros w [<-|[]]; lra]|].
  destruct IH as (v & Hv & V); [discriminate|]. destruct (Rle_dec (snd v) (snd x)).
  - exists x. split; [now left|]. intros w [<-|Hw]; [lra|]. specialize (V w Hw). lra.
  - exists v. split; [now right|]. intros w [<-|Hw]; [lra|]. now apply V.
Qed.
Lemma in_polygon_below_top p : in_polygon l p -> exists v, In v l /\ snd p <= snd v.
Proof.
  intro H. destruct (max_snd l) as (v & Hv & V); [destruct C as (Len & _); intros ->; cbn in Len; lia|]. exists v. split; [exact Hv|].
  pose proof (star_center_halfplane l p 0 (-1) (- snd v) (convex_loop l C) (convex_star l p H)) as T.
  pose proof (convex_area l C). assert (- snd v <= 0 * fst p + -1 * snd p); [|lra]. apply T; [lra|]. intros w Hw. specialize (V w Hw). lra.
Qed.
(** matplotlib's test accepts the closed polygon without its lowest corner (or horizontal edge). *)
Lemma inside_convex p : mpl_inside l p = true <-> in_polygon l p /\ exists v, In v l /\ snd v < snd p.
Proof.
  rewrite inside_edges. split.
  - intro X.
    destruct (parity (fun a b => goes_up p a b && Rleb 0 (turn a b p)) l) eqn:EU; [rewrite xorb_true_l in X|rewrite xorb_false_l in X].
    + destruct (parity (fun a b => goes_down p a b && Rltb (turn a b p) 0) l) eqn:ED; [discriminate|].
      apply parity_up in EU. destruct EU as (a & b & Hab & Yab & Tab). pose proof Yab as Y. rewrite goes_up_spec in Y.
      destruct (edge_vertices a b Hab) as [Ia Ib]. split; [|exists a; split; [exact Ia|lra]].
      destruct (exists_down p) as (c & d & Hcd & Ycd); [exists b; split; [exact Ib|lra]|exists a; split; [exact Ia|lra]|].
      assert (Tcd : 0 <= turn c d p).
      { destruct (Rle_dec 0 (turn c d p)); [assumption|]. exfalso. enough (false = true) by discriminate. rewrite <- ED. apply parity_down. exists c, d. repeat split; auto. lra. }
      rewrite goes_down_spec in Ycd. intros e f Hef.
      pose proof (meet_up e f a b (snd p) Hef Hab Y) as M1. pose proof (meet_down e f c d (snd p) Hef Hcd Ycd) as M2.
      rewrite (turn_meet a b p) in Tab by lra. rewrite (turn_meet c d p) in Tcd by lra.
      assert (L1 : fst p <= meet a b (snd p)) by nra. assert (L2 : meet c d (snd p) <= fst p) by nra.
      destruct p as [px py]. cbn [fst snd] in *.
      rewrite (turn_affine_x e f (meet a b py) px py). pose proof (turn_affine_x e f (meet c d py) px py) as Q. rewrite (turn_affine_x e f (meet a b py)) in Q.
      destruct (Rle_dec 0 (snd f - snd e)); nra.
    + exfalso. apply parity_down in X. destruct X as (c & d & Hcd & Ycd & Tcd). pose proof Ycd as Y. rewrite goes_down_spec in Y.
      destruct (edge_vertices c d Hcd) as [Ic Id].
      destruct (exists_up p) as (a & b & Hab & Yab); [exists c; split; [exact Ic|lra]|exists d; split; [exact Id|lra]|].
      assert (Tab : turn a b p < 0).
      { destruct (Rle_dec 0 (turn a b p)); [|lra]. exfalso. enough (false = true) by discriminate. rewrite <- EU. apply parity_up. exists a, b. auto. }
      rewrite goes_up_spec in Yab. pose proof (meet_down a b c d (snd p) Hab Hcd Y) as M.
      rewrite turn_meet in M by lra. cbn [fst snd] in M. rewrite turn_meet in Tab by lra. rewrite turn_meet in Tcd by lra. nra.
  - intros [Hp Hb]. pose proof (in_polygon_below_top p Hp) as Ht. destruct (exists_up p Ht Hb) as (a & b & Hab & Yab).
    assert (EU : parity (fun a b => goes_up p a b && Rleb 0 (turn a b p)) l = true).
    { apply parity_up. exists a, b. repeat split; auto. }
    rewrite EU. destruct (parity (fun a b => goes_down p a b && Rltb (turn a b p) 0) l) eqn:ED; [|reflexivity].
    apply parity_down in ED. destruct ED as (c & d & Hcd & _ & T). specialize (Hp c d Hcd). lra.
Qed.
(** the interior is above the lowest corner *)
Lemma interior_in p : in_interior l p -> in_polygon l p.
Proof. intros H a b E. left. now apply H. Qed.
Lemma min_snd (m : list (R * R)) : m <> [] -> exists v, In v m /\ forall w, In w m -> snd v <= snd w.
Proof.
  induction m as [|x m IH]; [congruence|]. intros _. destruct m as [|y m]; [exists x; split; [now left|intros w [<-|[]]; lra]|].
  destruct IH as (v & Hv & V); [discriminate|]. destruct (Rle_dec (snd x) (snd v)).
  - exists x. split; [now left|]. intros w [<-|Hw]; [lra|]. specialize (V w Hw). lra.
  - exists v. split; [now right|]. intros w [<-|Hw]; [lra|]. now apply V.
Qed.
Lemma edge_out v : In v l -> exists b, edge l v b.
Proof.
  intro Hv. pose proof C as (Len & (p & r & E & L & _) & _).
  assert (G : forall w, In w (removelast l) -> exists b, edge l w b).
  { rewrite E. clear. revert p. induction r as [|q r IH]; intros p w Hw; [destruct Hw|].
    change (removelast (p :: q :: r)) with (p :: removelast (q :: r)) in Hw. destruct Hw as [<-|Hw]; [exists q; apply edge_here|].
    destruct (IH q w Hw) as [b B]. exists b. now apply edge_next. }
  rewrite E in Hv. destruct (in_inv Hv) as [->|Hr].
  - apply G. rewrite E. destruct r as [|q r]; [rewrite E in Len; cbn in Len; lia|]. now left.
  - destruct (exists_last (l := r)) as (m & x & Er); [destruct r; [destruct Hr|discriminate]|]. rewrite Er in Hr, L. rewrite last_last in L. subst x.
    apply in_app_or in Hr. apply G. rewrite E, Er. replace (p :: m ++ [p]) with ((p :: m) ++ [p]) by reflexivity. rewrite removelast_last.
    destruct Hr as [Hr|[->|[]]]; [now right|now left].
Qed.
Lemma edge_into v : In v l -> exists a, edge l a v.
Proof.
  intro Hv. pose proof C as (Len & (p & r & E & L & _) & _).
  assert (G : forall w, In w r -> exists a, edge l a w).
  { rewrite E. clear. revert p. induction r as [|q r IH]; intros p w Hw; [destruct Hw|].
    destruct Hw as [<-|Hw]; [exists p; apply edge_here|]. destruct (IH q w Hw) as [b B]. exists b. now apply edge_next. }
  rewrite E in Hv. destruct Hv as [->|Hr]; [|now apply G]. apply G.
  destruct (exists_last (l := r)) as (m & x & Er); [destruct r; [rewrite E in Len; cbn in Len; lia|discriminate]|]. rewrite Er in L |- *. rewrite last_last in L. subst x.
  apply in_or_app. right; now left.
Qed.
Lemma interior_above_bottom p : in_interior l p -> exists v, In v l /\ snd v < snd p.
Proof.
  intro H. destruct (min_snd l) as (v & Hv & V); [destruct C as (Len & _); intros ->; cbn in Len; lia|]. exists v. split; [exact Hv|].
  pose proof (star_center_halfplane l p 0 1 (snd v) (convex_loop l C) (convex_star l p (interior_in p H))) as T. pose proof (convex_area l C).
  assert (T' : snd v <= 0 * fst p + 1 * snd p) by (apply T; [lra|]; intros w Hw; specialize (V w Hw); lra).
  destruct (Rle_lt_or_eq_dec (snd v) (snd p)) as [|Q]; [lra|assumption|]. exfalso.
  destruct (edge_out v Hv) as [b Eb]. destruct (edge_into v Hv) as [a Ea]. pose proof (H _ _ Ea) as Ta. pose proof (H _ _ Eb) as Tb.
  destruct (edge_vertices _ _ Ea) as [Ia _]. destruct (edge_vertices _ _ Eb) as [_ Ib]. apply V in Ia, Ib.
  unfold turn in Ta, Tb. rewrite <- Q in Ta, Tb.
  assert (Ta' : 0 < (fst v - fst p) * (snd v - snd a)) by lra. assert (Tb' : 0 < (fst v - fst p) * (snd b - snd v)) by lra.
  destruct (Rle_dec (fst v) (fst p)).
  - assert (0 <= (fst p - fst v) * (snd b - snd v)) by (apply Rmult_le_pos; lra). lra.
  - assert (0 <= (fst v - fst p) * (snd a - snd v)) by (apply Rmult_le_pos; lra). lra.
Qed.
End Convex.

(** Convexity of the region. *)
Lemma turn_between a b p q t : turn a b (between p q t) = (1 - t) * turn a b p + t * turn a b q.
Proof. unfold turn, between; cbn [fst snd]. ring. Qed.
Lemma in_polygon_between l p q t : 0 <= t <= 1 -> in_polygon l p -> in_polygon l q -> in_polygon l (between p q t).
Proof. intros Ht Hp Hq a b E. rewrite turn_between. specialize (Hp a b E). specialize (Hq a b E). apply Rplus_le_le_0_compat; apply Rmult_le_pos; lra. Qed.

(** A closed polygon given by an indexed family of points in anticlockwise order. *)
Lemma edge_map_seq (P : nat -> R * R) : forall n s a b, edge (map P (seq s (S n))) a b -> exists k, (s <= k < s + n)%nat /\ a = P k /\ b = P (S k).
Proof.
  induction n as [|n IH]; intros s a b H; [now apply edge_single in H|].
  change (map P (seq s (S (S n)))) with (P s :: P (S s) :: map P (seq (S (S s)) n)) in H. apply edge_inv in H.
  destruct H as [[-> ->]|H]; [exists s; repeat split; lia|].
  change (P (S s) :: map P (seq (S (S s)) n)) with (map P (seq (S s) (S n))) in H. destruct (IH (S s) a b H) as (k & Hk & E). exists k. split; [lia|exact E].
Qed.
Lemma map_seq_edge (P : nat -> R * R) n k : (k < n)%nat -> edge (map P (seq 0 (S n))) (P k) (P (S k)).
Proof.
  intro H. replace (S n) with (k + (2 + (n - k - 1)))%nat by lia. rewrite seq_app, map_app. cbn [plus seq map]. now exists (map P (seq 0 k)), (map P (seq (S (S k)) (n - k - 1))).
Qed.
Lemma turn_nondeg a b c : turn a b c <> 0 -> a <> b /\ b <> c /\ a <> c.
Proof. intro H. repeat split; intros ->; apply H; unfold turn; ring. Qed.
Lemma convex_of_points (P : nat -> R * R) m : (3 <= m)%nat -> P m = P 0%nat ->
  (forall i j k, (i < j)%nat -> (j < k)%nat -> (k < m)%nat -> 0 < turn (P i) (P j) (P k)) -> convex_polygon (map P (seq 0 (S m))).
Proof.
  intros Hm Hw H.
  assert (Dist : forall i j, (i < j)%nat -> (j < m)%nat -> P i <> P j).
  { intros i j Hij Hj. destruct (Nat.eq_dec i 0) as [->|].
    - destruct (Nat.eq_dec j 1) as [->|].
      + specialize (H 0%nat 1%nat 2%nat ltac:(lia) ltac:(lia) ltac:(lia)). apply (turn_nondeg _ _ (P 2%nat)). lra.
      + specialize (H 0%nat 1%nat j ltac:(lia) ltac:(lia) ltac:(lia)). apply (turn_nondeg _ (P 1%nat) _). lra.
    - specialize (H 0%nat i j ltac:(lia) ltac:(lia) ltac:(lia)). apply (turn_nondeg (P 0%nat) _ _). lra. }
  split; [rewrite map_length, seq_length; lia|]. split.
  - exists (P 0%nat), (map P (seq 1 m)). split; [reflexivity|]. split.
    + replace m with (S (m - 1)) by lia. rewrite seq_S, map_app. cbn [map]. rewrite last_last. replace (1 + (m - 1))%nat with m by lia. exact Hw.
    + replace m with (S (m - 1)) by lia. rewrite seq_S, map_app. cbn [map]. replace (1 + (m - 1))%nat with m by lia. rewrite Hw.
      assert (N1 : NoDup (map P (seq 0 m))).
      { apply NoDup_nth_error. intros i j Hi E. rewrite map_length, seq_length in Hi.
        assert (Hj : (j < m)%nat).
        { apply Nat.nle_gt. intro. rewrite (proj2 (nth_error_None (map P (seq 0 m)) j)) in E by (now rewrite map_length, seq_length).
          apply nth_error_None in E. rewrite map_length, seq_length in E. lia. }
        rewrite !nth_error_map in E. rewrite !(nth_error_nth' _ 0%nat) in E by (now rewrite seq_length). rewrite !seq_nth in E by assumption. cbn in E. injection E as E.
        destruct (Nat.lt_trichotomy i j) as [L|[L|L]]; [|exact L|]; exfalso; [exact (Dist i j L Hj E)|apply (Dist j i L Hi); auto]. }
      replace m with (S (m - 1)) in N1 by lia. exact (Permutation_NoDup (Permutation_cons_append _ _) N1).
  - intros a b c E Hc Na Nb. apply edge_map_seq in E. destruct E as (k & Hk & -> & ->).
    apply in_map_iff in Hc. destruct Hc as (j & <- & Hj). apply in_seq in Hj.
    assert (J : exists j', (j' < m)%nat /\ P j = P j').
    { destruct (Nat.eq_dec j m) as [->|]; [exists 0%nat; split; [lia|exact Hw]|exists j; split; [lia|reflexivity]]. }
    destruct J as (i & Hi & Ej). rewrite Ej in *. clear j Hj Ej.
    destruct (Nat.eq_dec (S k) m) as [Em|].
    + rewrite Em, Hw in *. assert (i <> 0)%nat by (intros ->; auto). assert (i <> k) by (intros ->; auto).
      rewrite turn_cyclic. apply H; lia.
    + assert (i <> k) by (intros ->; auto). assert (i <> S k) by (intros ->; auto).
      destruct (Nat.lt_ge_cases i k); [rewrite turn_cyclic, turn_cyclic; apply H; lia|apply H; lia].
Qed.
Lemma map_seq_in (P : nat -> R * R) n k : (k < n)%nat -> In (P k) (map P (seq 0 n)).
Proof. intro H. apply in_map, in_seq. lia. Qed.
