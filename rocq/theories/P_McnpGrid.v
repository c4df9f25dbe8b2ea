(** C59 on the grids that the sampler produces. *)
From Coq Require Import List Bool Arith ZArith Lia Sorted.
From Verif Require Import Base Space SpecSpace P_Space Source SpecSource SourceProofs P_Source Reactions SpectraData Energy TextWrap SpecText Format SpecFormat Mcnp SpecMcnp McnpProofs SpecSdef SdefProofs P_Mcnp.

Lemma contiguous_adjacent h l : (forall p a b q, l = p ++ a :: b :: q -> b = a + h) -> contiguous h l.
Proof.
  induction l as [|a l IH]; intro H; [exact I|]. destruct l as [|b l]; [exact I|]. split; [exact (H [] a b l eq_refl)|]. apply IH. intros p x y q E. apply (H (a :: p) x y q). now rewrite E.
Qed.
Lemma column_adjacent l : forall c p a b q, In c (columns l) -> heights c = p ++ a :: b :: q ->
  exists pre s1 s2 post, l = pre ++ (fst c, a, s1) :: (fst c, b, s2) :: post.
Proof.
  induction l as [|[[r z] s] l IH]; intros c p a b q Hc E; [destruct Hc|]. rewrite columns_step in Hc.
  assert (Tail : In c (columns l) -> exists pre s1 s2 post, (r, z, s) :: l = pre ++ (fst c, a, s1) :: (fst c, b, s2) :: post).
  { intro H. destruct (IH c p a b q H E) as (pre & s1 & s2 & post & ->). now exists ((r, z, s) :: pre), s1, s2, post. }
  destruct (columns l) as [|[r' c'] rest] eqn:Ec.
  - destruct Hc as [<-|[]]. unfold heights in E. cbn in E. destruct p as [|? [|? ?]]; discriminate.
  - destruct (Req_EM_T r r') as [<-|].
    + destruct Hc as [<-|Hc]; [|apply Tail; now right]. cbn [fst] in *. unfold heights in E. cbn [snd map] in E. destruct p as [|x p].
      * cbn [app] in E. injection E as <- E. destruct c' as [|[z' s'] c']; [discriminate|]. cbn [map fst] in E. injection E as <- _.
        exists [], s. cbn [app].
        assert (Hd : exists l', l = (r, z', s') :: l').
        { clear - Ec. destruct l as [|[[r1 z1] s1] l]; [discriminate|]. rewrite columns_step in Ec. exists l. destruct (columns l) as [|[r2 c2] rest2]; [injection Ec; intros; subst; reflexivity|]. destruct (Req_EM_T r1 r2); injection Ec; intros; subst; reflexivity. }
        destruct Hd as [l' ->]. exists s', l'. reflexivity.
      * cbn [app] in E. injection E as <- E. destruct (IH (r, c') p a b q (or_introl eq_refl)) as (pre & s1 & s2 & post & ->); [exact E|].
        now exists ((r, z, s) :: pre), s1, s2, post.
    + destruct Hc as [<-|Hc]; [|now apply Tail]. unfold heights in E. cbn in E. destruct p as [|? [|? ?]]; discriminate.
Qed.
Lemma columns_adjacent l : forall p a b q, map fst (columns l) = p ++ a :: b :: q ->
  a <> b /\ exists pre z1 s1 z2 s2 post, l = pre ++ (a, z1, s1) :: (b, z2, s2) :: post.
Proof.
  induction l as [|[[r z] s] l IH]; intros p a b q E; [destruct p; discriminate|]. rewrite columns_step in E.
  assert (Hd : forall r' c' rest, columns l = (r', c') :: rest -> exists z' s' l', l = (r', z', s') :: l').
  { clear. intros r' c' rest Ec. destruct l as [|[[r1 z1] s1] l]; [discriminate|]. rewrite columns_step in Ec. exists z1, s1, l. destruct (columns l) as [|[r2 c2] rest2]; [injection Ec; intros; subst; reflexivity|]. destruct (Req_EM_T r1 r2); injection Ec; intros; subst; reflexivity. }
  destruct (columns l) as [|[r' c'] rest] eqn:Ec; [destruct p as [|? [|? ?]]; discriminate|]. destruct (Req_EM_T r r') as [<-|N].
  - destruct (IH p a b q) as (Nab & pre & z1 & s1 & z2 & s2 & post & ->); [exact E|]. split; [exact Nab|]. now exists ((r, z, s) :: pre), z1, s1, z2, s2, post.
  - destruct p as [|x p].
    + cbn [map fst app] in E. injection E as <- <- _. split; [exact N|]. destruct (Hd r' c' rest eq_refl) as (z' & s' & l' & ->). now exists [], z, s, z', s', l'.
    + cbn [map fst app] in E. injection E as <- E. destruct (IH p a b q) as (Nab & pre & z1 & s1 & z2 & s2 & post & ->); [exact E|]. split; [exact Nab|]. now exists ((r, z, s) :: pre), z1, s1, z2, s2, post.
Qed.

(** The cells of a channel, as listed by the sampler, with their strengths. *)
Definition listed (ss : list sample) (v : list R) : list cell := combine (combine (map sx ss) (map sz ss)) v.
Lemma listed_split ss : forall v pre r1 z1 s1 r2 z2 s2 post, listed ss v = pre ++ (r1, z1, s1) :: (r2, z2, s2) :: post ->
  exists ss1 a b ss2, ss = ss1 ++ a :: b :: ss2 /\ sx a = r1 /\ sz a = z1 /\ sx b = r2 /\ sz b = z2.
Proof.
  unfold listed. induction ss as [|c ss IH]; intros v pre r1 z1 s1 r2 z2 s2 post E; [destruct pre; discriminate|]. destruct v as [|x v]; [destruct pre; discriminate|].
  destruct pre as [|p pre].
  - destruct ss as [|c' ss]; [discriminate|]. destruct v as [|x' v]; [discriminate|]. cbn [map combine app] in E.
    assert (E1 : (sx c, sz c, x) = (r1, z1, s1)) by congruence. assert (E2 : (sx c', sz c', x') = (r2, z2, s2)) by congruence. injection E1 as U1 U2 _. injection E2 as U3 U4 _.
    exists [], c, c', ss. repeat split; assumption.
  - cbn [map combine app] in E. injection E as _ E. destruct (IH v pre r1 z1 s1 r2 z2 s2 post E) as (ss1 & a & b & ss2 & -> & H). now exists (c :: ss1), a, b, ss2.
Qed.
Lemma nothing_between (ss1 ss2 : list sample) a b t : StronglySorted before (ss1 ++ a :: b :: ss2) -> In t (ss1 ++ a :: b :: ss2) -> before a t -> before t b -> False.
Proof.
  assert (Tr : forall x y, before x y -> before y x -> False) by (unfold before; intros; lra).
  assert (Ir : forall x, before x x -> False) by (unfold before; intros; lra).
  assert (T3 : forall x y w, before x y -> before y w -> before x w) by (unfold before; intros x y w; lra).
  induction ss1 as [|x ss1 IH]; cbn [app]; intros HS Hin Hat Htb.
  - inversion HS as [|? ? HS' Fa]; subst. inversion HS' as [|? ? _ Fb]; subst. destruct Hin as [<-|[<-|Hin]]; [eauto|eauto|]. rewrite Forall_forall in Fb. eauto.
  - inversion HS as [|? ? HS' Fx]; subst. destruct Hin as [<-|Hin]; [|auto]. rewrite Forall_forall in Fx. assert (before x a) by (apply Fx; apply in_or_app; right; now left). eauto.
Qed.
Lemma adjacent_before (ss1 ss2 : list sample) a b : StronglySorted before (ss1 ++ a :: b :: ss2) -> before a b.
Proof.
  induction ss1 as [|x ss1 IH]; cbn [app]; intro HS; inversion HS as [|? ? HS' F]; subst; [exact (Forall_inv F)|now apply IH].
Qed.

Section Grid.
Variables (inside : list (R * R) -> R * R -> bool) (lcfs : list (R * R)) (o : R * R) (h : R) (ss : list sample).
Hypothesis Hh : 0 < h.
Hypothesis E : sample_space_2d inside lcfs o h = Ok ss.
Lemma lattice_le i j : (i <= j)%Z -> IZR i * h <= IZR j * h.
Proof. intro H. apply IZR_le in H. nra. Qed.
Lemma lattice_lt i j : IZR i * h < IZR j * h -> (i < j)%Z.
Proof. intro H. destruct (Z.lt_ge_cases i j); [assumption|]. pose proof (lattice_le j i ltac:(lia)). lra. Qed.

(** Neighbouring cells of a column and neighbouring columns are never closer than the side. *)
Lemma heights_spaced v c p a b q : In c (columns (listed ss v)) -> heights c = p ++ a :: b :: q ->
  exists i j k, fst c = fst o + IZR i * h /\ a = snd o + IZR j * h /\ b = snd o + IZR k * h /\ (j < k)%Z /\
    inside lcfs (lattice o h i j) = true /\ inside lcfs (lattice o h i k) = true /\
    exists ss1 u w ss2, ss = ss1 ++ u :: w :: ss2 /\ (sx u, sz u) = lattice o h i j /\ (sx w, sz w) = lattice o h i k.
Proof.
  intros Hc Ec. destruct (column_adjacent _ c p a b q Hc Ec) as (pre & s1 & s2 & post & El). apply listed_split in El. destruct El as (ss1 & u & w & ss2 & Es & Ux & Uz & Wx & Wz).
  destruct (C28_distinct_lattice_cells_inside inside lcfs o h ss Hh E) as [L _]. assert (Hu : In u ss) by (rewrite Es; apply in_or_app; right; now left). assert (Hw : In w ss) by (rewrite Es; apply in_or_app; right; right; now left).
  destruct (L u Hu) as (Iu & i & j & Pu). destruct (L w Hw) as (Iw & i' & k & Pw). pose proof (C30_sampling_order inside lcfs o h ss Hh E) as So. rewrite Es in So. apply adjacent_before in So.
  rewrite Pu in Iu. rewrite Pw in Iw. pose proof Pu as Pu'. pose proof Pw as Pw'. unfold lattice in Pu', Pw'. injection Pu' as Pu1 Pu2. injection Pw' as Pw1 Pw2.
  assert (i = i'). { assert (Q : IZR i * h = IZR i' * h) by lra. apply Rmult_eq_reg_r in Q; [now apply eq_IZR|lra]. } subst i'.
  exists i, j, k. split; [lra|]. split; [lra|]. split; [lra|]. split.
  - apply lattice_lt. unfold before in So. lra.
  - split; [exact Iu|]. split; [exact Iw|]. now exists ss1, u, w, ss2.
Qed.
Lemma radii_spaced v p a b q : map fst (columns (listed ss v)) = p ++ a :: b :: q ->
  exists i j i' k, a = fst o + IZR i * h /\ b = fst o + IZR i' * h /\ (i < i')%Z /\
    inside lcfs (lattice o h i j) = true /\ inside lcfs (lattice o h i' k) = true /\
    exists ss1 u w ss2, ss = ss1 ++ u :: w :: ss2 /\ (sx u, sz u) = lattice o h i j /\ (sx w, sz w) = lattice o h i' k.
Proof.
  intros Ec. destruct (columns_adjacent _ p a b q Ec) as (N & pre & z1 & s1 & z2 & s2 & post & El). apply listed_split in El. destruct El as (ss1 & u & w & ss2 & Es & Ux & Uz & Wx & Wz).
  destruct (C28_distinct_lattice_cells_inside inside lcfs o h ss Hh E) as [L _]. assert (Hu : In u ss) by (rewrite Es; apply in_or_app; right; now left). assert (Hw : In w ss) by (rewrite Es; apply in_or_app; right; right; now left).
  destruct (L u Hu) as (Iu & i & j & Pu). destruct (L w Hw) as (Iw & i' & k & Pw). pose proof (C30_sampling_order inside lcfs o h ss Hh E) as So. rewrite Es in So. apply adjacent_before in So.
  rewrite Pu in Iu. rewrite Pw in Iw. pose proof Pu as Pu'. pose proof Pw as Pw'. unfold lattice in Pu', Pw'. injection Pu' as Pu1 Pu2. injection Pw' as Pw1 Pw2.
  exists i, j, i', k. split; [lra|]. split; [lra|]. split.
  - apply lattice_lt. unfold before in So. destruct So as [So|[So _]]; [lra|]. exfalso. apply N. lra.
  - split; [exact Iu|]. split; [exact Iw|]. now exists ss1, u, w, ss2.
Qed.
End Grid.

(** Every bin covers its cell: the bin starts at the cell's lower side and ends at or beyond its upper side. *)
Lemma bins_cover h l : (forall p a b q, l = p ++ a :: b :: q -> a + h <= b) ->
  forall p a q, l = p ++ a :: q -> exists top, nth (length p) (bins (boundaries h l)) (0, 0) = (100 * (a - h / 2), top) /\ 100 * (a + h / 2) <= top.
Proof.
  intros H p a q E. destruct q as [|b q].
  - exists (100 * (a + h / 2)). split; [|lra]. subst l. unfold boundaries. rewrite last_last. clear. generalize (100 * (a + h / 2)) as e. intro e. rewrite map_app. cbn [map].
    induction p as [|x p IH]; [reflexivity|]. cbn [map app length].
    destruct ((map (fun x0 => 100 * (x0 - h / 2)) p ++ [100 * (a - h / 2)]) ++ [e]) as [|y t] eqn:Et; [destruct p; discriminate|]. exact IH.
  - exists (100 * (b - h / 2)). subst l. destruct (C59_gap_widens_bin h p a b q) as [G _]. split; [exact G|]. specialize (H p a b q eq_refl). lra.
Qed.
Theorem C59_bins_cover_cells : forall inside lcfs o h ss v, 0 < h -> sample_space_2d inside lcfs o h = Ok ss ->
  let cs := columns (combine (combine (map sx ss) (map sz ss)) v) in
  (forall p a q, map fst cs = p ++ a :: q -> exists top, nth (length p) (bins (boundaries h (map fst cs))) (0, 0) = (100 * (a - h / 2), top) /\ 100 * (a + h / 2) <= top) /\
  (forall c p a q, In c cs -> heights c = p ++ a :: q -> exists top, nth (length p) (bins (boundaries h (heights c))) (0, 0) = (100 * (a - h / 2), top) /\ 100 * (a + h / 2) <= top).
Proof.
  intros inside lcfs o h ss v Hh E cs. assert (Step : forall i j, (i < j)%Z -> IZR i * h + h <= IZR j * h).
  { intros i j H. assert (H' : (i + 1 <= j)%Z) by lia. apply IZR_le in H'. rewrite plus_IZR in H'. nra. }
  split.
  - apply bins_cover. intros p a b q Ec. destruct (radii_spaced inside lcfs o h ss Hh E v p a b q Ec) as (i & j & i' & k & -> & -> & L & _). specialize (Step i i' L). lra.
  - intros c p a q Hc. apply bins_cover. intros p' a' b' q' Ec. destruct (heights_spaced inside lcfs o h ss Hh E v c p' a' b' q' Hc Ec) as (i & j & k & _ & -> & -> & L & _). specialize (Step j k L). lra.
Qed.
Print Assumptions C59_bins_cover_cells.

(** A plasma without gaps on the lattice: the bins are exactly the cells. *)
Theorem C59_no_gaps : forall inside lcfs o h ss v, 0 < h -> stays_in_box inside -> sample_space_2d inside lcfs o h = Ok ss ->
  (forall i j k j', (j <= k <= j')%Z -> inside lcfs (lattice o h i j) = true -> inside lcfs (lattice o h i j') = true -> inside lcfs (lattice o h i k) = true) ->
  (forall i k i' j j', (i <= k <= i')%Z -> inside lcfs (lattice o h i j) = true -> inside lcfs (lattice o h i' j') = true -> exists m, inside lcfs (lattice o h k m) = true) ->
  let cs := columns (combine (combine (map sx ss) (map sz ss)) v) in
  contiguous h (map fst cs) /\ Forall (fun c => contiguous h (heights c)) cs.
Proof.
  intros inside lcfs o h ss v Hh Hb E Vc Hc cs. pose proof (C30_sampling_order inside lcfs o h ss Hh E) as So. split.
  - apply contiguous_adjacent. intros p a b q Ec. destruct (radii_spaced inside lcfs o h ss Hh E v p a b q Ec) as (i & j & i' & k & -> & -> & L & Iu & Iw & ss1 & u & w & ss2 & Es & Pu & Pw).
    destruct (Z.eq_dec i' (i + 1)) as [->|N]; [rewrite plus_IZR; lra|exfalso]. destruct (Hc i (i + 1)%Z i' j k ltac:(lia) Iu Iw) as [m Im].
    destruct (C29_no_cell_missed inside lcfs o h ss Hh Hb E _ _ Im) as (t & Ht & Pt). rewrite Es in So, Ht. unfold lattice in Pu, Pw, Pt. injection Pu as U1 _. injection Pw as W1 _. injection Pt as T1 _. rewrite plus_IZR in T1.
    assert (IZR (i + 2) <= IZR i') by (apply IZR_le; lia). rewrite plus_IZR in H. apply (nothing_between ss1 ss2 u w t So Ht); left; nra.
  - apply Forall_forall. intros c Hcc. apply contiguous_adjacent. intros p a b q Ec.
    destruct (heights_spaced inside lcfs o h ss Hh E v c p a b q Hcc Ec) as (i & j & k & Fc & -> & -> & L & Iu & Iw & ss1 & u & w & ss2 & Es & Pu & Pw).
    destruct (Z.eq_dec k (j + 1)) as [->|N]; [rewrite plus_IZR; lra|exfalso]. pose proof (Vc i j (j + 1)%Z k ltac:(lia) Iu Iw) as Im.
    destruct (C29_no_cell_missed inside lcfs o h ss Hh Hb E _ _ Im) as (t & Ht & Pt). rewrite Es in So, Ht. unfold lattice in Pu, Pw, Pt. injection Pu as U1 U2. injection Pw as W1 W2. injection Pt as T1 T2. rewrite plus_IZR in T2.
    assert (IZR (j + 2) <= IZR k) by (apply IZR_le; lia). rewrite plus_IZR in H. apply (nothing_between ss1 ss2 u w t So Ht); right; (split; [lra|nra]).
Qed.
Print Assumptions C59_no_gaps.

(** A square plasma has no gaps, with matplotlib's point-in-polygon test. *)
Definition ex_square : list (R * R) := [(1, -1); (3, -1); (3, 1); (1, 1)].
Lemma ex_square_inside x z : mpl_inside ex_square (x, z) = true <-> 1 <= x <= 3 /\ -1 < z <= 1.
Proof.
  unfold mpl_inside, ex_square, crossings, crossing. cbn [fst snd].
  destruct (Rleb_spec z (-1)), (Rleb_spec z 1); cbn [Bool.eqb xorb];
    repeat match goal with |- context [Rleb ?a ?b] => destruct (Rleb_spec a b) end; cbn [Bool.eqb xorb]; split; intro; try discriminate; try reflexivity; try lra.
Qed.
Example ex_square_no_gaps : exists ss, sample_space_2d mpl_inside ex_square (2, 0) (1 / 4) = Ok ss /\ ss <> [] /\ forall v,
  let cs := columns (combine (combine (map sx ss) (map sz ss)) v) in
  contiguous (1 / 4) (map fst cs) /\ Forall (fun c => contiguous (1 / 4) (heights c)) cs.
Proof.
  assert (I0 : mpl_inside ex_square (2, 0) = true) by (apply ex_square_inside; lra).
  destruct (C29_o_point_sampled ex_square (2, 0) (1 / 4) ltac:(lra) I0) as (ss & s & E & Hs & _). exists ss. split; [exact E|]. split; [intros ->; destruct Hs|].
  intro v. apply (C59_no_gaps mpl_inside ex_square (2, 0) (1 / 4)); [lra|exact C29_crossing_test_stays_in_box|exact E| |].
  - intros i j k j' [L1 L2]. apply IZR_le in L1, L2. unfold lattice. cbn [fst snd]. rewrite !ex_square_inside. lra.
  - intros i k i' j j' [L1 L2]. apply IZR_le in L1, L2. unfold lattice. cbn [fst snd]. rewrite !ex_square_inside. intros. exists 0%Z. rewrite ex_square_inside. lra.
Qed.
