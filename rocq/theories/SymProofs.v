(** Lemmas for C90-C92. *)
From Coq Require Import Sorted Permutation.
From Verif Require Import Base Space SpecSpace SpaceProofs SpecFlux SpecSym Reactions Transport Reactivity Source.

(** ** The sampled cells are fixed by the test, the lattice and the order *)
Lemma SS_unique {A} (P : A -> A -> Prop) : (forall a, ~ P a a) -> (forall a b, P a b -> ~ P b a) -> forall l l',
  StronglySorted P l -> StronglySorted P l' -> (forall a, In a l <-> In a l') -> l = l'.
Proof.
  intros Irr Asy. induction l as [|x l IH]; intros l' S S' H.
  - destruct l' as [|y l']; [reflexivity|]. exfalso. apply (proj2 (H y)). now left.
  - destruct l' as [|y l']; [exfalso; apply (proj1 (H x)); now left|].
    inversion S as [|? ? Sl Fl]; subst. inversion S' as [|? ? Sl' Fl']; subst. rewrite Forall_forall in Fl, Fl'.
    assert (x = y) as ->.
    { destruct (proj1 (H x) (or_introl eq_refl)) as [->|Hx]; [reflexivity|].
      destruct (proj2 (H y) (or_introl eq_refl)) as [->|Hy]; [reflexivity|]. exfalso. exact (Asy _ _ (Fl _ Hy) (Fl' _ Hx)). }
    f_equal. apply IH; try assumption. intro a. split; intro Ha.
    + destruct (proj1 (H a) (or_intror Ha)) as [<-|]; [exfalso; exact (Irr _ (Fl _ Ha))|assumption].
    + destruct (proj2 (H a) (or_intror Ha)) as [<-|]; [exfalso; exact (Irr _ (Fl' _ Ha))|assumption].
Qed.
Lemma before_asym s t : before s t -> ~ before t s.
Proof. unfold before; lra. Qed.

Lemma sample_member inside lcfs o h ss : 0 < h -> stays_in_box inside -> sample_space_2d inside lcfs o h = Ok ss ->
  forall s, In s ss <-> inside lcfs (sx s, sz s) = true /\ (exists i j, (sx s, sz s) = lattice o h i j) /\ svol s = 2 * PI * sx s * (h * h).
Proof.
  intros Hh Hb E s. split; [intro Hs; exact (sample_lattice inside lcfs o h Hh ss E s Hs)|].
  intros (Hi & (i & j & L) & V). rewrite L in Hi.
  destruct (sample_complete inside lcfs o h Hh ss E i j Hb Hi) as (t & Ht & Lt). rewrite <- L in Lt.
  destruct (sample_lattice inside lcfs o h Hh ss E t Ht) as (_ & _ & Vt).
  assert (t = s); [|now subst]. destruct t as [[a b] v], s as [[a' b'] v']. unfold sx, sz, svol in *. cbn [fst snd] in *.
  injection Lt as -> ->. now rewrite Vt, V.
Qed.

(** A map that carries one sampling problem to another carries the cells. *)
Section Carried.
  Variables (inside : list (R * R) -> R * R -> bool) (lcfs lcfs' : list (R * R)) (o o' : R * R) (h h' : R) (g g' : R * R -> R * R) (v : R).
  Hypotheses (Hb : stays_in_box inside) (Hh : 0 < h) (Hh' : 0 < h')
    (inv : forall p, g' (g p) = p) (inv' : forall p, g (g' p) = p)
    (lat : forall i j, exists i' j', g (lattice o h i j) = lattice o' h' i' j')
    (lat' : forall i j, exists i' j', g' (lattice o' h' i j) = lattice o h i' j')
    (same : forall i j, inside lcfs' (g (lattice o h i j)) = inside lcfs (lattice o h i j))
    (vol : forall p, fst (g p) * (h' * h') = v * (fst p * (h * h))).

  Lemma carried_member ss ss' : sample_space_2d inside lcfs o h = Ok ss -> sample_space_2d inside lcfs' o' h' = Ok ss' ->
    forall t, In t ss' <-> In t (map (carry g v) ss).
  Proof.
    intros E E' t. rewrite (sample_member inside lcfs' o' h' ss' Hh' Hb E' t). rewrite in_map_iff. split.
    - intros (Hi & (i & j & L) & V). destruct (lat' i j) as (i' & j' & L').
      set (p := lattice o h i' j') in *. assert (Gp : g p = (sx t, sz t)) by (rewrite <- L', inv', L; reflexivity).
      exists (fst p, snd p, 2 * PI * fst p * (h * h)). split.
      + unfold carry, sx, sz, svol. cbn [fst snd]. rewrite <- (surjective_pairing p), Gp. destruct t as [[a b] w]. unfold sx, sz, svol in *. cbn [fst snd] in *.
        f_equal. rewrite V. pose proof (vol p) as W. rewrite Gp in W. cbn [fst] in W.
        replace (v * (2 * PI * fst p * (h * h))) with (2 * PI * (v * (fst p * (h * h)))) by ring. rewrite <- W. ring.
      + apply (sample_member inside lcfs o h ss Hh Hb E). unfold sx, sz, svol. cbn [fst snd]. rewrite <- (surjective_pairing p).
        split; [|split; [exists i', j'; reflexivity|reflexivity]]. unfold p. rewrite <- same. fold p. rewrite Gp. exact Hi.
    - intros (s & <- & Hs). apply (sample_member inside lcfs o h ss Hh Hb E) in Hs. destruct Hs as (Hi & (i & j & L) & V).
      unfold carry. set (q := g (sx s, sz s)). change (sx (fst q, snd q, v * svol s)) with (fst q). change (sz (fst q, snd q, v * svol s)) with (snd q). change (svol (fst q, snd q, v * svol s)) with (v * svol s). rewrite <- (surjective_pairing q).
      split; [unfold q; rewrite L, same, <- L; exact Hi|]. split; [unfold q; rewrite L; apply lat|].
      rewrite V. pose proof (vol (sx s, sz s)) as W. cbn [fst] in W. fold q in W.
      replace (v * (2 * PI * sx s * (h * h))) with (2 * PI * (v * (sx s * (h * h)))) by ring. rewrite <- W. ring.
  Qed.
  Lemma sample_ok_iff : (lcfs' = [] <-> lcfs = []) -> forall ss, sample_space_2d inside lcfs o h = Ok ss -> exists ss', sample_space_2d inside lcfs' o' h' = Ok ss'.
  Proof.
    intros N ss E. destruct (sample_cases inside lcfs' o' h' Hh') as [[E0 _]|(xs & zs & _ & _ & F)]; [|eauto].
    apply N in E0. destruct (sample_cases inside lcfs o h Hh) as [[_ F]|(xs & zs & Hx & _ & _)]; [congruence|]. rewrite E0 in Hx. discriminate.
  Qed.
  Lemma carried_perm ss ss' : sample_space_2d inside lcfs o h = Ok ss -> sample_space_2d inside lcfs' o' h' = Ok ss' -> Permutation (map (carry g v) ss) ss'.
  Proof.
    intros E E'. apply NoDup_Permutation.
    - pose proof (sample_nodup_points inside lcfs o h Hh ss E) as N. clear E. induction ss as [|s l IH]; cbn [map]; constructor.
      + intro Hi. apply in_map_iff in Hi. destruct Hi as (t & Q & Ht). cbn [map] in N. inversion N as [|? ? Nh Nt]; subst. apply Nh.
        assert (g (sx t, sz t) = g (sx s, sz s)).
        { unfold carry in Q. injection Q as Q1 Q2 _. now rewrite (surjective_pairing (g (sx t, sz t))), (surjective_pairing (g (sx s, sz s))), Q1, Q2. }
        apply (f_equal g') in H. rewrite !inv in H. destruct t as [[a b] w], s as [[a' b'] w']. unfold sx, sz in H. cbn [fst snd] in H. injection H as -> ->.
        apply in_map_iff. exists (a', b', w). split; [reflexivity|exact Ht].
      + apply IH. cbn [map] in N. now inversion N.
    - apply (NoDup_map_inv fst). now apply (sample_nodup_points inside lcfs' o' h' Hh').
    - intro t. rewrite (carried_member ss ss' E E' t). reflexivity.
  Qed.
  Lemma carried_sorted ss ss' : (forall p q, fst p < fst q -> fst (g p) < fst (g q)) -> (forall p q, fst p = fst q -> snd p < snd q -> fst (g p) = fst (g q) /\ snd (g p) < snd (g q)) ->
    sample_space_2d inside lcfs o h = Ok ss -> sample_space_2d inside lcfs' o' h' = Ok ss' -> ss' = map (carry g v) ss.
  Proof.
    intros O1 O2 E E'. apply (SS_unique before before_irrefl before_asym).
    - exact (sample_sorted inside lcfs' o' h' Hh' ss' E').
    - apply (SS_map before before) with (2 := sample_sorted inside lcfs o h Hh ss E). intros s t [L|[L1 L2]]; unfold before, carry, sx, sz; cbn [fst snd].
      + left. now apply O1.
      + right. now apply O2.
    - apply carried_member; assumption.
  Qed.
End Carried.

(** ** The crossing test *)
Lemma crossing_enlarge k b p u v : 0 < k -> crossing (enlarge k b p) (enlarge k b u) (enlarge k b v) = crossing p u v.
Proof.
  intro Hk. unfold crossing, enlarge; cbn [fst snd].
  assert (F : forall a c, Rleb (k * a + b) (k * c + b) = Rleb a c) by (intros a c; destruct (Rleb_spec (k * a + b) (k * c + b)), (Rleb_spec a c); try reflexivity; exfalso; nra).
  rewrite !F.
  set (A := (fst v - fst p) * (snd u - snd v)). set (B := (snd v - snd p) * (fst u - fst v)).
  replace ((k * fst v - k * fst p) * (k * snd u + b - (k * snd v + b))) with (k * k * A) by (unfold A; ring).
  replace ((k * snd v + b - (k * snd p + b)) * (k * fst u - k * fst v)) with (k * k * B) by (unfold B; ring).
  assert (P : 0 < k * k) by nra.
  assert (G : Rleb (k * k * A) (k * k * B) = Rleb A B) by (destruct (Rleb_spec (k * k * A) (k * k * B)), (Rleb_spec A B); try reflexivity; exfalso; nra).
  now rewrite G.
Qed.
Lemma mpl_inside_enlarge k b lcfs p : 0 < k -> mpl_inside (map (enlarge k b) lcfs) (enlarge k b p) = mpl_inside lcfs p.
Proof.
  intro Hk. destruct lcfs as [|v r]; [reflexivity|]. cbn [map mpl_inside]. generalize false. generalize v at 2 4.
  induction r as [|w r IH]; intros a acc; cbn [map crossings]; rewrite crossing_enlarge by exact Hk; [reflexivity|apply IH].
Qed.

(** [level z p v]: v is at the height of p and not to its left. Mirrored crossings differ from the original ones by these marks. *)
Definition level (p v : R * R) : bool := Reqb (snd v) (snd p) && Rleb (fst p) (fst v).

Lemma not_on_edge_horizontal p a b : ~ on_edge p a b -> snd a = snd p -> snd b = snd p -> level p a = level p b.
Proof.
  intros N Ha Hb. unfold level. rewrite Ha, Hb, Reqb_refl. cbn [andb].
  assert (K : forall x y : R * R, snd x = snd p -> snd y = snd p -> fst x <= fst p < fst y -> on_edge p x y).
  { intros x y Hx Hy [L1 L2]. exists ((fst p - fst x) / (fst y - fst x)). assert (0 < fst y - fst x) by lra. split; [|split].
    - split; [apply Rmult_le_pos; [lra|apply Rlt_le, Rinv_0_lt_compat; lra]|].
      apply (Rmult_le_reg_r (fst y - fst x)); [lra|]. unfold Rdiv. rewrite Rmult_assoc, Rinv_l by lra. lra.
    - field. lra.
    - rewrite Hx, Hy. ring. }
  assert (Sym : forall x y, on_edge p x y -> on_edge p y x) by (intros x y (t & T & E1 & E2); exists (1 - t); split; [lra|split; [rewrite E1|rewrite E2]; ring]).
  assert (Na : fst p <> fst a) by (intro Q; apply N; exists 0; split; [lra|split; [rewrite Q|rewrite Ha]; ring]).
  assert (Nb : fst p <> fst b) by (intro Q; apply N; exists 1; split; [lra|split; [rewrite Q|rewrite Hb]; ring]).
  destruct (Rleb_spec (fst p) (fst a)), (Rleb_spec (fst p) (fst b)); try reflexivity; exfalso; apply N.
  - apply Sym. apply K; auto; lra.
  - apply K; auto; lra.
Qed.

(** If the two sides of the crossing condition agree, the point is on the line. *)
Lemma equality_on_edge p a b : (snd p <= snd a <-> snd b < snd p) \/ (snd a <= snd p <-> snd p < snd b) ->
  (fst b - fst p) * (snd a - snd b) = (snd b - snd p) * (fst a - fst b) -> snd a <> snd b -> on_edge p a b.
Proof.
  intros H E N. exists ((snd p - snd a) / (snd b - snd a)). assert (D : snd b - snd a <> 0) by lra.
  assert (M : 0 <= (snd p - snd a) / (snd b - snd a) <= 1).
  { destruct (Rlt_le_dec (snd a) (snd b)) as [L|L].
    - assert (snd a <= snd p <= snd b) by (destruct H as [[H1 H2]|[H1 H2]]; destruct (Rle_lt_dec (snd p) (snd a)); destruct (Rlt_le_dec (snd b) (snd p)); destruct (Rle_lt_dec (snd a) (snd p)); try lra; exfalso; try (specialize (H1 ltac:(lra))); try (specialize (H2 ltac:(lra))); lra).
      split; [apply Rmult_le_pos; [lra|apply Rlt_le, Rinv_0_lt_compat; lra]|].
      apply (Rmult_le_reg_r (snd b - snd a)); [lra|]. unfold Rdiv. rewrite Rmult_assoc, Rinv_l by lra. lra.
    - assert (snd b <= snd p <= snd a) by (destruct H as [[H1 H2]|[H1 H2]]; destruct (Rle_lt_dec (snd p) (snd a)); destruct (Rlt_le_dec (snd b) (snd p)); destruct (Rle_lt_dec (snd a) (snd p)); try lra; exfalso; try (specialize (H1 ltac:(lra))); try (specialize (H2 ltac:(lra))); lra).
      replace ((snd p - snd a) / (snd b - snd a)) with ((snd a - snd p) / (snd a - snd b)) by (field; lra).
      split; [apply Rmult_le_pos; [lra|apply Rlt_le, Rinv_0_lt_compat; lra]|].
      apply (Rmult_le_reg_r (snd a - snd b)); [lra|]. unfold Rdiv. rewrite Rmult_assoc, Rinv_l by lra. lra. }
  split; [exact M|]. split; [|field; lra].
  apply (Rmult_eq_reg_r (snd b - snd a)); [|exact D].
  replace ((fst a + (snd p - snd a) / (snd b - snd a) * (fst b - fst a)) * (snd b - snd a)) with (fst a * (snd b - snd a) + (snd p - snd a) * (fst b - fst a)) by (field; exact D).
  nra.
Qed.

Ltac rdec := repeat match goal with
  | |- context [Rleb ?a ?b] => destruct (Rleb_spec a b)
  | |- context [Reqb ?a ?b] => destruct (Reqb_spec a b) end.

Lemma crossing_mirror c p a b : ~ on_edge p a b ->
  xorb (crossing (mirror c p) (mirror c a) (mirror c b)) (crossing p a b) = xorb (level p a) (level p b).
Proof.
  intro N. pose proof (not_on_edge_horizontal p a b N) as NH. pose proof (equality_on_edge p a b) as NE.
  assert (Na : ~ (fst p = fst a /\ snd p = snd a)) by (intros [Q1 Q2]; apply N; exists 0; split; [lra|split; [rewrite Q1|rewrite Q2]; ring]).
  assert (Nb : ~ (fst p = fst b /\ snd p = snd b)) by (intros [Q1 Q2]; apply N; exists 1; split; [lra|split; [rewrite Q1|rewrite Q2]; ring]).
  unfold crossing, mirror; cbn [fst snd].
  assert (F : forall x y, Rleb (2 * c - x) (2 * c - y) = Rleb y x) by (intros x y; rdec; try reflexivity; exfalso; lra). rewrite !F.
  replace ((fst b - fst p) * (2 * c - snd a - (2 * c - snd b))) with (- ((fst b - fst p) * (snd a - snd b))) by ring.
  replace ((2 * c - snd b - (2 * c - snd p)) * (fst a - fst b)) with (- ((snd b - snd p) * (fst a - fst b))) by ring.
  assert (F2 : forall x y, Rleb (- x) (- y) = Rleb y x) by (intros x y; rdec; try reflexivity; exfalso; lra). rewrite F2.
  destruct (Rtotal_order (snd a) (snd p)) as [La|[La|La]]; destruct (Rtotal_order (snd b) (snd p)) as [Lb|[Lb|Lb]].
  - (* both below *) unfold level. rdec; cbn; try reflexivity; exfalso; lra.
  - (* a below, b level *)
    unfold level. rewrite Lb. rdec; cbn; try reflexivity; exfalso; try lra; try nra.
  - (* a below, b above *)
    assert (A : (fst b - fst p) * (snd a - snd b) <> (snd b - snd p) * (fst a - fst b)) by (intro Q; apply N, NE; [right; split; intro; lra|exact Q|lra]).
    set (A1 := (fst b - fst p) * (snd a - snd b)) in *. set (B1 := (snd b - snd p) * (fst a - fst b)) in *. clearbody A1 B1.
    unfold level. rdec; cbn; try reflexivity; exfalso; lra.
  - (* a level, b below *)
    unfold level. rewrite La in *. assert (fst p <> fst a) by (intro; apply Na; lra).
    rdec; cbn; try reflexivity; exfalso; try lra; try nra.
  - (* both level *)
    rewrite (NH La Lb), xorb_nilpotent. rdec; cbn; try reflexivity; exfalso; lra.
  - (* a level, b above *)
    unfold level. rewrite La in *. assert (fst p <> fst a) by (intro; apply Na; lra).
    rdec; cbn; try reflexivity; exfalso; try lra; try nra.
  - (* a above, b below *)
    assert (A : (fst b - fst p) * (snd a - snd b) <> (snd b - snd p) * (fst a - fst b)) by (intro Q; apply N, NE; [left; split; intro; lra|exact Q|lra]).
    set (A1 := (fst b - fst p) * (snd a - snd b)) in *. set (B1 := (snd b - snd p) * (fst a - fst b)) in *. clearbody A1 B1.
    unfold level. rdec; cbn; try reflexivity; exfalso; lra.
  - (* a above, b level *)
    unfold level. rewrite Lb in *. rdec; cbn; try reflexivity; exfalso; try lra; try nra.
  - (* both above *) unfold level. rdec; cbn; try reflexivity; exfalso; lra.
Qed.

Lemma crossing_sym p a b : ~ on_edge p a b -> crossing p b a = crossing p a b.
Proof.
  intro N. pose proof (equality_on_edge p a b) as NE. unfold crossing.
  replace ((fst a - fst p) * (snd b - snd a)) with ((snd b - snd p) * (fst a - fst b) - (fst b - fst p) * (snd a - snd b) + (snd a - snd p) * (fst b - fst a)) by ring.
  set (A1 := (fst b - fst p) * (snd a - snd b)) in *. set (B1 := (snd b - snd p) * (fst a - fst b)) in *.
  assert (F : forall x, Rleb (B1 - A1 + x) x = Rleb B1 A1) by (intro x; rdec; try reflexivity; exfalso; lra). rewrite F.
  destruct (Rleb_spec (snd p) (snd a)) as [Ha|Ha], (Rleb_spec (snd p) (snd b)) as [Hb|Hb]; cbn [Bool.eqb]; try reflexivity.
  - assert (A : A1 <> B1) by (intro Q; apply N, NE; [left; split; intro; lra|exact Q|lra]). clearbody A1 B1. rdec; cbn; try reflexivity; exfalso; lra.
  - assert (A : A1 <> B1) by (intro Q; apply N, NE; [|exact Q|lra]; left; split; intro; lra). clearbody A1 B1. rdec; cbn; try reflexivity; exfalso; lra.
Qed.

(** ** Closed curves *)
(** The parity of the crossings over an open chain of points. *)
Fixpoint chain (f : R * R -> R * R -> bool) (l : list (R * R)) : bool :=
  match l with a :: ((b :: _) as r) => xorb (f a b) (chain f r) | _ => false end.
Lemma crossings_chain p first v0 rest b : crossings p first v0 rest b = xorb b (chain (crossing p) (v0 :: rest ++ [first])).
Proof.
  revert v0 b; induction rest as [|w r IH]; intros v0 b; cbn [crossings app chain]; [now rewrite xorb_false_r|].
  rewrite IH. cbn [app]. now rewrite xorb_assoc.
Qed.
Lemma inside_chain l p : mpl_inside l p = match l with [] => false | v :: r => chain (crossing p) (v :: r ++ [v]) end.
Proof. destruct l as [|v r]; [reflexivity|]. cbn [mpl_inside]. rewrite crossings_chain. apply xorb_false_l. Qed.
Lemma chain_app f l a l' : chain f (l ++ a :: l') = xorb (chain f (l ++ [a])) (chain f (a :: l')).
Proof.
  induction l as [|x l IH]; [cbn [app chain]; now rewrite xorb_false_l|].
  destruct l as [|y l].
  - cbn [app] in *. change (chain f (x :: a :: l')) with (xorb (f x a) (chain f (a :: l'))). change (chain f [x; a]) with (xorb (f x a) false). now rewrite xorb_false_r.
  - cbn [app] in *. change (chain f (x :: y :: l ++ a :: l')) with (xorb (f x y) (chain f (y :: l ++ a :: l'))).
    change (chain f (x :: y :: l ++ [a])) with (xorb (f x y) (chain f (y :: l ++ [a]))). rewrite IH. now rewrite xorb_assoc.
Qed.
Lemma chain_rev f l : chain f (rev l) = chain (fun a b => f b a) l.
Proof.
  induction l as [|a l IH]; [reflexivity|]. cbn [rev]. destruct l as [|b l]; [reflexivity|].
  change (chain (fun a b => f b a) (a :: b :: l)) with (xorb (f b a) (chain (fun a b => f b a) (b :: l))). rewrite <- IH.
  cbn [rev]. rewrite <- app_assoc. cbn [app]. rewrite chain_app. change (chain f [b; a]) with (xorb (f b a) false). rewrite xorb_false_r. apply xorb_comm.
Qed.
(** Points on an open chain. *)
Fixpoint on_open (p : R * R) (l : list (R * R)) : Prop := match l with a :: ((b :: _) as r) => on_edge p a b \/ on_open p r | _ => False end.
Lemma chain_ext_off p f g l : (forall a b, ~ on_edge p a b -> f a b = g a b) -> ~ on_open p l -> chain f l = chain g l.
Proof.
  intro H. induction l as [|a l IH]; intro N; [reflexivity|]. destruct l as [|b l]; [reflexivity|].
  change (xorb (f a b) (chain f (b :: l)) = xorb (g a b) (chain g (b :: l))). cbn [on_open] in N. rewrite IH by tauto. rewrite H by tauto. reflexivity.
Qed.
Lemma on_chain_open p first l : l <> [] -> on_chain p first l <-> on_open p (l ++ [first]).
Proof.
  induction l as [|a l IH]; intro Hn; [congruence|]. destruct l as [|b l]; [cbn; tauto|].
  cbn [on_chain app on_open] in *. rewrite IH by discriminate. tauto.
Qed.
Lemma on_curve_open p v r : on_curve p (v :: r) <-> on_open p (v :: r ++ [v]).
Proof. cbn [on_curve]. rewrite on_chain_open by discriminate. reflexivity. Qed.

(** The start of the curve does not matter. *)
Lemma inside_rotate l1 l2 p : mpl_inside (l1 ++ l2) p = mpl_inside (l2 ++ l1) p.
Proof.
  destruct l1 as [|a l1]; [now rewrite app_nil_r|]. destruct l2 as [|b l2]; [now rewrite app_nil_r|].
  rewrite !inside_chain. cbn [app]. rewrite <- !app_assoc. cbn [app].
  change (a :: l1 ++ b :: l2 ++ [a]) with ((a :: l1) ++ b :: (l2 ++ [a])). change (b :: l2 ++ a :: l1 ++ [b]) with ((b :: l2) ++ a :: (l1 ++ [b])).
  rewrite (chain_app _ (a :: l1) b), (chain_app _ (b :: l2) a). cbn [app]. apply xorb_comm.
Qed.
(** Nor does its direction, away from the curve. *)
Lemma inside_rev l p : ~ on_curve p l -> mpl_inside (rev l) p = mpl_inside l p.
Proof.
  destruct l as [|v r]; [reflexivity|]. rewrite on_curve_open. intro N. cbn [rev]. rewrite inside_rotate. cbn [app].
  rewrite !inside_chain. replace (v :: rev r ++ [v]) with (rev (v :: r ++ [v])) by (cbn [rev]; rewrite rev_app_distr; reflexivity).
  rewrite chain_rev. apply (chain_ext_off p); [|exact N]. intros a b Ne. now apply crossing_sym.
Qed.
(** Marks telescope. *)
Lemma chain_marks (g : R * R -> bool) a l b : chain (fun x y => xorb (g x) (g y)) (a :: l ++ [b]) = xorb (g a) (g b).
Proof.
  revert a. induction l as [|c l IH]; intro a; cbn [app].
  - change (xorb (xorb (g a) (g b)) false = xorb (g a) (g b)). apply xorb_false_r.
  - change (xorb (xorb (g a) (g c)) (chain (fun x y => xorb (g x) (g y)) (c :: l ++ [b])) = xorb (g a) (g b)). rewrite IH.
    destruct (g a), (g c), (g b); reflexivity.
Qed.
Lemma chain_xor f g l : chain (fun a b => xorb (f a b) (g a b)) l = xorb (chain f l) (chain g l).
Proof.
  induction l as [|a l IH]; [reflexivity|]. destruct l as [|b l]; [reflexivity|].
  change (xorb (xorb (f a b) (g a b)) (chain (fun a b => xorb (f a b) (g a b)) (b :: l)) = xorb (xorb (f a b) (chain f (b :: l))) (xorb (g a b) (chain g (b :: l)))).
  rewrite IH. destruct (f a b), (g a b), (chain f (b :: l)), (chain g (b :: l)); reflexivity.
Qed.
Lemma chain_map f (g : R * R -> R * R) l : chain f (map g l) = chain (fun a b => f (g a) (g b)) l.
Proof. induction l as [|a l IH]; [reflexivity|]. destruct l as [|b l]; [reflexivity|]. cbn [map] in *. cbn [chain] in *. now rewrite IH. Qed.
Lemma inside_mirror c l p : ~ on_curve p l -> mpl_inside (map (mirror c) l) (mirror c p) = mpl_inside l p.
Proof.
  destruct l as [|v r]; [reflexivity|]. rewrite on_curve_open. intro N. rewrite !inside_chain. cbn [map].
  replace (mirror c v :: map (mirror c) r ++ [mirror c v]) with (map (mirror c) (v :: r ++ [v])) by (cbn [map]; now rewrite map_app).
  rewrite chain_map.
  assert (X : xorb (chain (fun a b => crossing (mirror c p) (mirror c a) (mirror c b)) (v :: r ++ [v])) (chain (crossing p) (v :: r ++ [v])) = false).
  { rewrite <- chain_xor. rewrite (chain_ext_off p _ (fun a b => xorb (level p a) (level p b))); [|intros; now apply crossing_mirror|exact N].
    rewrite chain_marks. apply xorb_nilpotent. }
  destruct (chain (fun a b => crossing (mirror c p) (mirror c a) (mirror c b)) (v :: r ++ [v])), (chain (crossing p) (v :: r ++ [v])); try reflexivity; discriminate.
Qed.
