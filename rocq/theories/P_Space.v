(** Property theorems C28-C31 (sampling of the poloidal plane, space.py). *)
From Coq Require Import Sorted.
From Verif Require Import Base Space SpecSpace SpaceProofs.

(** C28, for any polygon test. *)
Theorem C28_distinct_lattice_cells_inside : forall inside lcfs o h ss, 0 < h ->
  sample_space_2d inside lcfs o h = Ok ss ->
  (forall s, In s ss -> inside lcfs (sx s, sz s) = true /\ exists i j, (sx s, sz s) = lattice o h i j) /\
  NoDup (map (fun s => (sx s, sz s)) ss).
Proof.
  intros inside lcfs o h ss Hh E. split.
  - intros s Hs. destruct (sample_lattice inside lcfs o h Hh ss E s Hs) as (A & B & _). auto.
  - pose proof (sample_nodup_points inside lcfs o h Hh ss E) as N.
    erewrite map_ext; [exact N|]. intros [[x z] v]. reflexivity.
Qed.
Print Assumptions C28_distinct_lattice_cells_inside.

(** The only failure for a positive cell size is an empty boundary. *)
Theorem C28_total : forall inside lcfs o h, 0 < h ->
  (lcfs = [] -> sample_space_2d inside lcfs o h = Err EValue) /\
  (lcfs <> [] -> exists ss, sample_space_2d inside lcfs o h = Ok ss).
Proof.
  intros inside lcfs o h Hh. destruct (sample_cases inside lcfs o h Hh) as [[E F]|(xs & zs & Hx & Hz & F)].
  - split; [auto|congruence].
  - split; [|eauto]. intros ->. discriminate.
Qed.
Print Assumptions C28_total.

(** C29, for any polygon test that stays within the polygon's bounding box. *)
Theorem C29_no_cell_missed : forall inside lcfs o h ss, 0 < h -> stays_in_box inside ->
  sample_space_2d inside lcfs o h = Ok ss ->
  forall i j, inside lcfs (lattice o h i j) = true ->
  exists s, In s ss /\ (sx s, sz s) = lattice o h i j.
Proof. intros inside lcfs o h ss Hh Hb E i j. exact (sample_complete inside lcfs o h Hh ss E i j Hb). Qed.
Print Assumptions C29_no_cell_missed.

(** The crossing-number test that matplotlib uses meets that condition. *)
Theorem C29_crossing_test_stays_in_box : stays_in_box mpl_inside.
Proof. exact mpl_inside_box. Qed.
Print Assumptions C29_crossing_test_stays_in_box.

Theorem C29_o_point_sampled : forall lcfs o h, 0 < h -> mpl_inside lcfs o = true ->
  exists ss s, sample_space_2d mpl_inside lcfs o h = Ok ss /\ In s ss /\ sx s = fst o /\ sz s = snd o.
Proof.
  intros lcfs o h Hh Hi. destruct (C28_total mpl_inside lcfs o h Hh) as [_ T].
  destruct T as [ss E]; [intros ->; discriminate|]. exists ss.
  assert (L : lattice o h 0 0 = o) by (unfold lattice; destruct o; cbn; f_equal; ring).
  destruct (C29_no_cell_missed mpl_inside lcfs o h ss Hh mpl_inside_box E 0%Z 0%Z) as (s & Hs & P); [now rewrite L|].
  rewrite L in P. exists s. split; [exact E|]. split; [exact Hs|]. now rewrite <- P.
Qed.
Print Assumptions C29_o_point_sampled.

Theorem C29_shift_invariance : forall lcfs o h a b ss, 0 < h ->
  sample_space_2d mpl_inside lcfs o h = Ok ss ->
  exists ss', sample_space_2d mpl_inside (map (shift_pt a b) lcfs) (shift_pt a b o) h = Ok ss' /\
    map (fun s => (sx s, sz s)) ss' = map (fun s => (sx s + a, sz s + b)) ss.
Proof. intros. eapply sample_shift; eauto. intro p. apply mpl_inside_shift. Qed.
Print Assumptions C29_shift_invariance.

(** C30 *)
Theorem C30_sampling_order : forall inside lcfs o h ss, 0 < h ->
  sample_space_2d inside lcfs o h = Ok ss -> StronglySorted before ss.
Proof. intros inside lcfs o h ss Hh E. exact (sample_sorted inside lcfs o h Hh ss E). Qed.
Print Assumptions C30_sampling_order.

(** C31 *)
Theorem C31_ring_volumes : forall inside lcfs o h ss, 0 < h ->
  sample_space_2d inside lcfs o h = Ok ss ->
  forall s, In s ss -> svol s = ring_volume (sx s) h /\ (0 < sx s -> 0 < svol s).
Proof.
  intros inside lcfs o h ss Hh E s Hs. destruct (sample_lattice inside lcfs o h Hh ss E s Hs) as (_ & _ & V).
  rewrite V. split; [unfold ring_volume, Rsqr; field|]. intro. pose proof PI_RGT_0.
  apply Rmult_lt_0_compat; [|nra]. apply Rmult_lt_0_compat; lra.
Qed.
Print Assumptions C31_ring_volumes.

Theorem C31_disjoint_interiors : forall inside lcfs o h ss, 0 < h ->
  sample_space_2d inside lcfs o h = Ok ss ->
  forall s t x z, In s ss -> In t ss -> in_cell h s x z -> in_cell h t x z -> s = t.
Proof.
  intros inside lcfs o h ss Hh E s t x z Hs Ht [S1 S2] [T1 T2].
  destruct (sample_lattice inside lcfs o h Hh ss E s Hs) as (_ & (i & j & P) & V).
  destruct (sample_lattice inside lcfs o h Hh ss E t Ht) as (_ & (k & l & Q) & W).
  unfold lattice in P, Q. injection P as P1 P2. injection Q as Q1 Q2.
  apply Rabs_def2 in S1, S2, T1, T2.
  assert (K : forall m n : Z, - h < (IZR m - IZR n) * h < h -> m = n).
  { intros m n [A B]. assert (-1 < IZR m - IZR n < 1) by (split; nra).
    rewrite <- minus_IZR in H. destruct H as [A' B']. apply (lt_IZR (-1)) in A'. apply (lt_IZR _ 1) in B'. lia. }
  assert (i = k) by (apply K; lra). assert (j = l) by (apply K; lra). subst k l.
  destruct s as [[a b] c], t as [[d e] f]. unfold sx, sz, svol in *. cbn in *. congruence.
Qed.
Print Assumptions C31_disjoint_interiors.

(** A concrete plasma: a square of side 2 about (2, 0), cells of side 1/2. *)
Definition square_lcfs : list (R * R) := [(1, -1); (3, -1); (3, 1); (1, 1); (1, -1)].
Example C28_C31_example : mpl_inside square_lcfs (2, 0) = true /\
  (exists ss, sample_space_2d mpl_inside square_lcfs (2, 0) (1 / 2) = Ok ss /\
    exists s, In s ss /\ sx s = 5 / 2 /\ sz s = - (1 / 2)).
Proof.
  assert (D : forall x y, 1 < x < 3 -> -1 < y < 1 -> mpl_inside square_lcfs (x, y) = true).
  { intros x y Hx Hy. cbn. unfold crossing; cbn.
    destruct (Rleb_spec y (-1)); [lra|]. destruct (Rleb_spec y 1); [|lra]. cbn.
    destruct (Rleb_spec ((3 - x) * (-1 - 1)) ((1 - y) * (3 - 3))); [|nra].
    destruct (Rleb_spec ((1 - x) * (1 - -1)) ((-1 - y) * (1 - 1))); [|nra]. reflexivity. }
  split; [apply D; lra|].
  destruct (C28_total mpl_inside square_lcfs (2, 0) (1 / 2)) as [_ T]; [lra|]. destruct T as [ss E]; [discriminate|].
  exists ss; split; [exact E|].
  destruct (C29_no_cell_missed mpl_inside square_lcfs (2, 0) (1 / 2) ss ltac:(lra) mpl_inside_box E 1%Z (-1)%Z) as (s & Hs & P).
  { unfold lattice; cbn. apply D; lra. }
  exists s. split; [exact Hs|]. unfold lattice in P. injection P as P1 P2. rewrite P1, P2. cbn. lra.
Qed.
