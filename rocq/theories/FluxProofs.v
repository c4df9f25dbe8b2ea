(** Lemmas about the flux model. *)
From Coq Require Import Sorting.Sorted.
From Verif Require Import Base Profile SpecProfile ProfileProofs Geometry SpecGeometry GeometryProofs Flux SpecFlux.
Open Scope R_scope.

Lemma lcfs_ok r0 z0 asp kap del shift sq : sensible r0 asp kap del shift ->
  make_lcfs_info r0 z0 asp kap del shift sq = Ok {| r_0 := r0; z_0 := z0; aspect_ratio := asp; kappa := kap; delta := del;
               shafranov_shift := Rabs shift; squareness := sq; minor_radius := r0 / asp |}.
Proof.
  intros (H1 & H2 & H3 & (H4 & H5) & H6). unfold make_lcfs_info.
  destruct (Rleb_spec r0 0); [lra|]. destruct (Rleb_spec asp 1); [lra|]. destruct (Rltb_spec kap 1); [lra|].
  destruct (Rleb_spec (-1) del); [|lra]. destruct (Rleb_spec del 1); [|lra]. cbn [andb negb].
  destruct (Rleb_spec (r0 / asp) (Rabs shift)); [lra|reflexivity].
Qed.
Lemma lcfs_bad r0 z0 asp kap del shift sq : ~ sensible r0 asp kap del shift ->
  make_lcfs_info r0 z0 asp kap del shift sq = Err EFluxSurface.
Proof.
  intro N. unfold make_lcfs_info.
  destruct (Rleb_spec r0 0); [reflexivity|]. destruct (Rleb_spec asp 1); [reflexivity|]. destruct (Rltb_spec kap 1); [reflexivity|].
  destruct (Rleb_spec (-1) del); [|reflexivity]. destruct (Rleb_spec del 1); [|reflexivity]. cbn [andb negb].
  destruct (Rleb_spec (r0 / asp) (Rabs shift)); [reflexivity|]. exfalso. apply N. unfold sensible. lra.
Qed.
Lemma sensible_dec r0 asp kap del shift : sensible r0 asp kap del shift \/ ~ sensible r0 asp kap del shift.
Proof.
  unfold sensible. destruct (Rlt_dec 0 r0), (Rlt_dec 1 asp), (Rle_dec 1 kap), (Rle_dec (-1) del), (Rle_dec del 1), (Rlt_dec (Rabs shift) (r0 / asp)); tauto.
Qed.
Lemma lcfs_inv r0 z0 asp kap del shift sq i : make_lcfs_info r0 z0 asp kap del shift sq = Ok i ->
  sensible r0 asp kap del shift /\ i = {| r_0 := r0; z_0 := z0; aspect_ratio := asp; kappa := kap; delta := del;
               shafranov_shift := Rabs shift; squareness := sq; minor_radius := r0 / asp |}.
Proof.
  intro E. destruct (sensible_dec r0 asp kap del shift) as [S|S].
  - split; [exact S|]. rewrite (lcfs_ok _ z0 _ _ _ _ sq S) in E. congruence.
  - rewrite (lcfs_bad _ z0 _ _ _ _ sq S) in E. discriminate.
Qed.
(** What holds of every shape. *)
Lemma shape_facts i : shape i -> 0 < r_0 i /\ 1 < aspect_ratio i /\ 1 <= kappa i /\ -1 <= delta i <= 1 /\
  minor_radius i = r_0 i / aspect_ratio i /\ 0 < minor_radius i < r_0 i /\ 0 <= shafranov_shift i < minor_radius i.
Proof.
  intros (r0 & z0 & asp & kap & del & shift & sq & E). apply lcfs_inv in E. destruct E as ((H1 & H2 & H3 & H4 & H5) & ->).
  cbn. assert (0 < r0 / asp < r0).
  { assert (0 < / asp < 1). { split; [apply Rinv_0_lt_compat; lra|]. rewrite <- Rinv_1. apply Rinv_lt_contravar; lra. }
    unfold Rdiv. nra. }
  pose proof (Rabs_pos shift). repeat split; lra.
Qed.

(** ** Angles *)
Lemma linspace_nth a b n k : (k < n)%nat -> (2 <= n)%nat -> nth_error (linspace a b n) k = Some (a + INR k * ((b - a) / INR (n - 1))).
Proof.
  intros Hk Hn. destruct n as [|[|m]]; [lia..|]. unfold linspace. rewrite nth_error_map.
  assert (E : nth_error (seq 0 (S (S m))) k = Some k).
  { rewrite (nth_error_nth' _ 0%nat) by (rewrite seq_length; lia). rewrite seq_nth by lia. reflexivity. }
  rewrite E. replace (S (S m) - 1)%nat with (S m) by lia. reflexivity.
Qed.
Lemma linspace_angle n k : (k < n)%nat -> nth_error (linspace 0 (2 * PI) n) k = Some (angle n k).
Proof.
  intro Hk. destruct n as [|[|m]]; [lia| |].
  - assert (k = 0%nat) by lia. subst. cbn. unfold angle. cbn [INR]. f_equal. change (INR 0) with 0. lra.
  - rewrite linspace_nth by lia. unfold angle. f_equal.
    assert (0 < INR (S (S m) - 1)) by (apply lt_0_INR; lia). field. lra.
Qed.
Lemma linspace_map_angle n : linspace 0 (2 * PI) n = map (angle n) (seq 0 n).
Proof.
  apply nth_ext with (d := 0) (d' := angle n 0).
  - now rewrite linspace_length, map_length, seq_length.
  - intros k Hk. rewrite linspace_length in Hk. rewrite map_nth, seq_nth by exact Hk.
    apply nth_error_nth. rewrite linspace_angle by exact Hk. reflexivity.
Qed.
Lemma angle_0 n : angle n 0 = 0. Proof. unfold angle. cbn [INR]. lra. Qed.
Lemma angle_last n : (2 <= n)%nat -> angle n (n - 1) = 2 * PI.
Proof. intro H. unfold angle. assert (0 < INR (n - 1)) by (apply lt_0_INR; lia). field. lra. Qed.
Lemma sin_2kPI_minus t : sin (2 * PI - t) = - sin t.
Proof. replace (2 * PI - t) with (- t + 2 * PI) by ring.
  replace (- t + 2 * PI) with (- t + 2 * INR 1 * PI) by (cbn; ring). rewrite sin_period, sin_neg. reflexivity. Qed.
Lemma cos_2kPI_minus t : cos (2 * PI - t) = cos t.
Proof. replace (2 * PI - t) with (- t + 2 * INR 1 * PI) by (cbn; ring). rewrite cos_period, cos_neg. reflexivity. Qed.

Lemma closed_turn (f : R -> R * R) n : (1 <= n)%nat -> f (2 * PI) = f 0 ->
  closed_flux_surface (map f (linspace 0 (2 * PI) n)) = Ok (SClosed (map (fun k => f (angle n k)) (seq 0 n))) /\
  loop (map (fun k => f (angle n k)) (seq 0 n)).
Proof.
  intros Hn Hf. rewrite linspace_map_angle, map_map.
  assert (L : loop (map (fun k => f (angle n k)) (seq 0 n))).
  { destruct n as [|m]; [lia|]. exists (f (angle (S m) 0)), (map (fun k => f (angle (S m) k)) (seq 1 m)). split; [reflexivity|].
    destruct m as [|m]; [reflexivity|]. replace (seq 1 (S m)) with (seq 1 m ++ [S m]) by (rewrite seq_S; reflexivity).
    rewrite map_app. cbn [map]. rewrite last_last, angle_0. replace (S m) with (S (S m) - 1)%nat at 2 by lia.
    rewrite angle_last by lia. exact Hf. }
  split; [|exact L]. destruct L as (p & r & E & Lr). rewrite E. unfold closed_flux_surface, is_closed. cbn [bind].
  rewrite Lr. unfold isclose. rewrite !Rminus_diag_eq by reflexivity. rewrite Rabs_R0.
  destruct (Rleb_spec 0 1e-12); [reflexivity|lra].
Qed.

(** ** Parameterised surfaces *)
Lemma fausser_eq i psi t : shape i ->
  fausser_point i psi t = fausser (r_0 i) (z_0 i) (minor_radius i) (kappa i) (delta i) (shafranov_shift i) psi t.
Proof.
  intro H. destruct (shape_facts i H) as (H1 & H2 & H3 & H4 & H5 & H6 & H7).
  unfold fausser_point, fausser. rewrite H5, Rabs_right by lra. f_equal; [f_equal; f_equal; f_equal|f_equal]; field; lra.
Qed.
Lemma sauter_eq i psi t : sauter_point i psi t = sauter (r_0 i) (z_0 i) (minor_radius i) (kappa i) (delta i) (squareness i) psi t.
Proof. unfold sauter_point, sauter. f_equal; ring. Qed.
Lemma fausser_turn R0 Z0 a k d D psi : fausser R0 Z0 a k d D psi (2 * PI) = fausser R0 Z0 a k d D psi 0.
Proof. unfold fausser. rewrite sin_2PI, sin_0, !Rmult_0_r, !Rplus_0_r, cos_2PI, cos_0. reflexivity. Qed.
Lemma sauter_turn R0 Z0 a k d x psi : sauter R0 Z0 a k d x psi (2 * PI) = sauter R0 Z0 a k d x psi 0.
Proof.
  unfold sauter. assert (S4 : sin (2 * (2 * PI)) = 0).
  { replace (2 * (2 * PI)) with (0 + 2 * INR 2 * PI) by (cbn; ring). rewrite sin_period. apply sin_0. }
  rewrite S4, sin_2PI. replace (2 * 0) with 0 by ring. rewrite sin_0.
  replace (2 * PI + d * 0) with (2 * PI) by ring. replace (0 + d * 0) with 0 by ring.
  replace (2 * PI + x * 0) with (2 * PI) by ring. replace (0 + x * 0) with 0 by ring. now rewrite cos_2PI, cos_0, sin_2PI, sin_0.
Qed.
Lemma fausser_mirror R0 Z0 a k d D psi t : fausser R0 Z0 a k d D psi (2 * PI - t) = mirror Z0 (fausser R0 Z0 a k d D psi t).
Proof.
  unfold fausser, mirror; cbn [fst snd]. rewrite sin_2kPI_minus.
  replace (2 * PI - t + d * - sin t) with (2 * PI - (t + d * sin t)) by ring. rewrite cos_2kPI_minus. f_equal. ring.
Qed.
Definition pt_of (p : parameterisation) (psi : R) : R -> R * R :=
  match p with Fausser i => fausser_point i psi | Sauter i => sauter_point i psi end.
Lemma surface_ok p psi n : shape (info p) -> (1 <= n)%nat ->
  flux_surface p psi n = Ok (SClosed (map (fun k => pt_of p psi (angle n k)) (seq 0 n))) /\
  loop (map (fun k => pt_of p psi (angle n k)) (seq 0 n)).
Proof.
  intros H Hn. unfold flux_surface, single_flux_surface. destruct p as [i|i]; cbn [pt_of info] in *; apply closed_turn; try exact Hn.
  - rewrite !fausser_eq by exact H. apply fausser_turn.
  - rewrite !sauter_eq. apply sauter_turn.
Qed.
Lemma surface_inv p psi n s : shape (info p) -> flux_surface p psi n = Ok s ->
  (1 <= n)%nat /\ s = SClosed (map (fun k => pt_of p psi (angle n k)) (seq 0 n)).
Proof.
  intros H E. destruct n as [|n]; [unfold flux_surface, single_flux_surface in E; destruct p; discriminate|].
  split; [lia|]. destruct (surface_ok p psi (S n) H ltac:(lia)) as [E' _]. congruence.
Qed.
Lemma angle_rev n k : (2 <= n)%nat -> (k < n)%nat -> angle n (n - 1 - k) = 2 * PI - angle n k.
Proof.
  intros Hn Hk. unfold angle. assert (0 < INR (n - 1)) by (apply lt_0_INR; lia). rewrite minus_INR by lia. field. lra.
Qed.
Lemma rev_seq_map {A} (f g : nat -> A) n : (forall k, (k < n)%nat -> f (n - 1 - k)%nat = g k) -> rev (map f (seq 0 n)) = map g (seq 0 n).
Proof.
  intro H. apply nth_ext with (d := f 0%nat) (d' := g 0%nat).
  - now rewrite rev_length, !map_length.
  - intros k Hk. rewrite rev_length, map_length, seq_length in Hk.
    rewrite rev_nth by (now rewrite map_length, seq_length). rewrite map_length, seq_length, !map_nth, !seq_nth by lia.
    cbn [plus]. rewrite <- H by exact Hk. f_equal. lia.
Qed.

(** ** Resampling *)
Lemma insert_last p l : Forall (fun q => fst q <= fst p) l -> insert_pair p l = l ++ [p].
Proof.
  induction 1 as [|q l H _ IH]; [reflexivity|]. cbn [insert_pair app]. destruct (Rleb_spec (fst q) (fst p)); [now rewrite IH|lra].
Qed.
Lemma sort_id_acc l acc : StronglySorted lex (acc ++ l) -> fold_left (fun a p => insert_pair p a) l acc = acc ++ l.
Proof.
  revert acc. induction l as [|p l IH]; intros acc H; cbn [fold_left]; [now rewrite app_nil_r|].
  rewrite insert_last.
  - rewrite IH; rewrite <- app_assoc; [reflexivity|exact H].
  - clear IH. induction acc as [|a acc IH]; [constructor|]. cbn [app] in H. inversion H as [|? ? H1 H2]; subst.
    constructor; [|now apply IH]. rewrite Forall_forall in H2. apply H2. apply in_or_app. right; now left.
Qed.
Lemma sort_pairs_id_le l : StronglySorted lex l -> sort_pairs l = l.
Proof. intro H. exact (sort_id_acc l [] H). Qed.

Lemma hypot_distance p q : hypot (fst q - fst p) (snd q - snd p) = distance p q.
Proof. unfold hypot, distance. f_equal. ring. Qed.
Lemma distance_pos p q : 0 <= distance p q.
Proof. apply sqrt_pos. Qed.
Lemma seg_nonneg l : Forall (fun x => 0 <= x) (seg_lengths l).
Proof.
  induction l as [|p [|q l] IH]; [constructor..|]. change (seg_lengths (p :: q :: l)) with (hypot (fst q - fst p) (snd q - snd p) :: seg_lengths (q :: l)).
  constructor; [apply sqrt_pos|exact IH].
Qed.
Lemma cumsum_ge a l : Forall (fun x => 0 <= x) l -> Forall (fun x => a <= x) (cumsum a l).
Proof.
  intro H. revert a. induction H as [|x l Hx _ IH]; intro a; cbn [cumsum]; constructor; [lra|].
  eapply Forall_impl; [|apply IH]. cbn. intros; lra.
Qed.
Lemma cumsum_length a l : length (cumsum a l) = length l.
Proof. revert a; induction l as [|x l IH]; intro a; cbn; auto. Qed.
Lemma seg_length p l : length (seg_lengths (p :: l)) = length l.
Proof. revert p. induction l as [|q l IH]; intro p; [reflexivity|]. cbn [length]. change (seg_lengths (p :: q :: l)) with (hypot (fst q - fst p) (snd q - snd p) :: seg_lengths (q :: l)). cbn [length]. now rewrite IH. Qed.
Lemma table_sorted (f : R * R -> R) a p l :
  StronglySorted lex (combine (a :: cumsum a (seg_lengths (p :: l))) (map f (p :: l))).
Proof.
  revert a p. induction l as [|q l IH]; intros a p.
  - cbn. repeat constructor.
  - specialize (IH (a + hypot (fst q - fst p) (snd q - snd p)) q).
    change (seg_lengths (p :: q :: l)) with (hypot (fst q - fst p) (snd q - snd p) :: seg_lengths (q :: l)).
    cbn [cumsum map combine] in IH |- *. constructor; [exact IH|].
    assert (Hh : 0 <= hypot (fst q - fst p) (snd q - snd p)) by apply sqrt_pos.
    apply Forall_forall. intros [x y] Hin. unfold lex; cbn [fst].
    change (In (x, y) (combine ((a + hypot (fst q - fst p) (snd q - snd p)) :: cumsum (a + hypot (fst q - fst p) (snd q - snd p)) (seg_lengths (q :: l))) (f q :: map f l))) in Hin.
    apply in_combine_l in Hin. destruct Hin as [<-|Hin]; [lra|].
    pose proof (cumsum_ge (a + hypot (fst q - fst p) (snd q - snd p)) _ (seg_nonneg (q :: l))) as G. rewrite Forall_forall in G.
    specialize (G x Hin). lra.
Qed.
Lemma last_cumsum a p l : last (a :: cumsum a (seg_lengths (p :: l))) 0 = a + path_length (p :: l).
Proof.
  revert a p. induction l as [|q l IH]; intros a p; [cbn; ring|].
  change (seg_lengths (p :: q :: l)) with (hypot (fst q - fst p) (snd q - snd p) :: seg_lengths (q :: l)).
  cbn [cumsum]. change (path_length (p :: q :: l)) with (distance p q + path_length (q :: l)).
  rewrite hypot_distance. rewrite last_cons. specialize (IH (a + distance p q) q).
  rewrite last_cons in IH. rewrite last_cons, IH. ring.
Qed.
Lemma last_x_combine a l (ys : list R) : length ys = length l -> last_x a (combine l ys) = last l a.
Proof.
  revert a ys. induction l as [|x l IH]; intros a [|y ys] H; try discriminate; [reflexivity|].
  cbn [combine last_x]. rewrite IH by (cbn in H; lia). now rewrite last_cons.
Qed.
Lemma interp_walk l : forall a p v, a <= v <= a + path_length (p :: l) ->
  exists r, walk (p :: l) (v - a) r /\
    forall f : R * R -> R, (f = fst \/ f = snd) -> interp_from a (f p) (combine (cumsum a (seg_lengths (p :: l))) (map f l)) v = f r.
Proof.
  induction l as [|q l IH]; intros a p v Hv.
  - cbn in Hv. assert (v - a = 0) as -> by lra. exists p. split; [constructor|]. intros f _. reflexivity.
  - change (path_length (p :: q :: l)) with (distance p q + path_length (q :: l)) in Hv.
    change (seg_lengths (p :: q :: l)) with (hypot (fst q - fst p) (snd q - snd p) :: seg_lengths (q :: l)).
    rewrite hypot_distance. cbn [cumsum map combine interp_from].
    destruct (Rleb_spec (a + distance p q) v) as [C|C].
    + destruct (IH (a + distance p q) q v) as (r & W & F); [lra|]. exists r. split; [|exact F].
      apply walk_on; [lra|]. replace (v - a - distance p q) with (v - (a + distance p q)) by ring. exact W.
    + eexists. split; [apply walk_here; lra|]. intros f [-> | ->]; cbn [fst snd]; field; lra.
Qed.
Lemma walk_0 l : forall r, walk l 0 r -> exists l', l = r :: l'.
Proof.
  assert (G : forall l s r, walk l s r -> s = 0 -> exists l', l = r :: l').
  { intros l0 s r W. induction W as [p|p q l0 s H|p q l0 s r H W IH]; intro E.
    - eauto.
    - subst. exists (q :: l0). f_equal. destruct p as [a b]; cbn [fst snd]. unfold Rdiv. f_equal; ring.
    - subst. assert (D : distance p q = 0) by (pose proof (distance_pos p q); lra). destruct IH as [l' E']; [lra|].
      injection E' as -> ->. exists (r :: l'). f_equal. unfold distance in D.
      pose proof (pow2_ge_0 (fst r - fst p)). pose proof (pow2_ge_0 (snd r - snd p)). apply sqrt_eq_0 in D; [|lra].
      assert (fst r - fst p = 0) by nra. assert (snd r - snd p = 0) by nra. destruct p, r; cbn in *. f_equal; lra. }
  intros r W. exact (G l 0 r W eq_refl).
Qed.
Lemma path_length_nonneg l : 0 <= path_length l.
Proof.
  induction l as [|p [|q l] IH]; [cbn; lra..|]. change (path_length (p :: q :: l)) with (distance p q + path_length (q :: l)).
  pose proof (distance_pos p q). lra.
Qed.

(** ** argmin *)
Definition first_min (l : list R) (i : nat) : Prop :=
  exists e, nth_error l i = Some e /\ forall j e', nth_error l j = Some e' -> e <= e' /\ ((j < i)%nat -> e < e').
Lemma argmin_from_spec l : forall pre best ib, nth_error pre ib = Some best -> first_min pre ib ->
  first_min (pre ++ l) (argmin_from best ib (length pre) l).
Proof.
  induction l as [|e l IH]; intros pre best ib Hb Hm; cbn [argmin_from]; [now rewrite app_nil_r|].
  assert (Hl : length (pre ++ [e]) = S (length pre)) by (rewrite app_length; cbn; lia).
  assert (Hib : (ib < length pre)%nat) by (apply nth_error_Some; congruence).
  destruct Hm as (b & Eb & Hm). assert (b = best) by congruence. subst b.
  assert (Snoc : forall j x, nth_error (pre ++ [e]) j = Some x -> (j < length pre)%nat /\ nth_error pre j = Some x \/ j = length pre /\ x = e).
  { intros j x Hx. destruct (Nat.lt_ge_cases j (length pre)) as [C|C].
    - left. split; [exact C|]. now rewrite nth_error_app1 in Hx.
    - right. rewrite nth_error_app2 in Hx by exact C. destruct (j - length pre)%nat as [|k] eqn:Q; cbn in Hx.
      + split; [lia|congruence].
      + destruct k; discriminate. }
  replace (pre ++ e :: l) with ((pre ++ [e]) ++ l) by (now rewrite <- app_assoc). rewrite <- Hl.
  destruct (Rltb_spec e best) as [C|C]; apply IH.
  - rewrite nth_error_app2 by lia. now rewrite Nat.sub_diag.
  - exists e. split; [rewrite nth_error_app2 by lia; now rewrite Nat.sub_diag|].
    intros j x Hx. destruct (Snoc j x Hx) as [[Q Hx']|[-> ->]]; [|split; [lra|lia]].
    destruct (Hm j x Hx'). split; lra.
  - now rewrite nth_error_app1.
  - exists best. split; [now rewrite nth_error_app1|].
    intros j x Hx. destruct (Snoc j x Hx) as [[Q Hx']|[-> ->]]; [now apply Hm|split; [lra|lia]].
Qed.
Lemma argmin_spec l i : argmin l = Ok i -> first_min l i.
Proof.
  destruct l as [|e l]; [discriminate|]. cbn [argmin]. intro E; injection E as <-.
  apply (argmin_from_spec l [e] e 0%nat); [reflexivity|]. exists e. split; [reflexivity|].
  intros [|j] x Hx; cbn in Hx; [injection Hx as ->; split; [lra|lia]|destruct j; discriminate].
Qed.
Lemma pysum_sum l : pysum l = sum l.
Proof. induction l as [|x l IH]; cbn [sum]; rewrite ?pysum_cons, ?pysum_nil, ?IH; reflexivity. Qed.
Lemma f_min_ok o g : g <> [] -> f_min o g = Ok (sqdist (mean_point g) (op_x o, op_z o)).
Proof.
  intro H. assert (N : INR (length g) <> 0) by (apply not_0_INR; destruct g; [congruence|discriminate]).
  unfold f_min, mean. rewrite !map_length, !np_div_ok by exact N. cbn [bind]. unfold sqdist, mean_point; cbn [fst snd].
  now rewrite !pysum_sum.
Qed.

(** ** Normalisation *)
Lemma normalise_ok psi a b c : a <> b -> normalise_psi psi a b c = Ok (map (flux_label c a b) psi).
Proof.
  intro H. unfold normalise_psi.
  rewrite (mapM_pure _ (fun p => (a - p) / (a - b))) by (intros; apply np_div_ok; lra). cbn [bind].
  assert (E : map (fun x => Rmax x 0) (map (fun p => (a - p) / (a - b)) psi) = map (flux_label LINEAR a b) psi).
  { rewrite map_map. apply map_ext. intro p. unfold flux_label. f_equal. field. lra. }
  rewrite E. destruct c; [reflexivity|]. rewrite (mapM_pure _ sqrt).
  - rewrite map_map. reflexivity.
  - intros x Hx. apply np_sqrt_ok. apply in_map_iff in Hx. destruct Hx as (p & <- & _). apply Rmax_r.
Qed.
Lemma normalise_bad p psi a c : normalise_psi (p :: psi) a a c = NonFinite.
Proof. unfold normalise_psi. cbn [mapM]. unfold np_div. rewrite Rminus_diag_eq by reflexivity. rewrite Reqb_refl. reflexivity. Qed.
Lemma flux_label_affine c k d a b p : k <> 0 -> a <> b -> flux_label c (k * a + d) (k * b + d) (k * p + d) = flux_label c a b p.
Proof.
  intros Hk H. unfold flux_label. replace ((k * p + d - (k * a + d)) / (k * b + d - (k * a + d))) with ((p - a) / (b - a)); [reflexivity|].
  assert (k * (b - a) <> 0) by (apply Rmult_integral_contrapositive_currified; lra).
  replace (k * b + d - (k * a + d)) with (k * (b - a)) by ring. field. split; lra.
Qed.

(** ** EQDSK *)
Lemma load_recocos k b e : k <> 0 -> psimag e <> psibdry e ->
  exists k' b', 0 < k' /\ load_eqdsk (recocos k b e) = recocos k' b' (load_eqdsk e).
Proof.
  intros Hk Hn. unfold load_eqdsk, recocos. cbn [psimag psibdry eq_psi eq_x eq_z xmag zmag bdry].
  destruct (Rltb_spec (psimag e) (psibdry e)) as [F|F]; destruct (Rltb_spec (k * psimag e + b) (k * psibdry e + b)) as [G|G];
  cbn [psimag psibdry eq_psi eq_x eq_z xmag zmag bdry].
  - exists k, 0. split; [nra|]. rewrite !map_map. f_equal; try ring; try lra. apply map_ext. intro; ring.
  - exists (- k), (k * psimag e + b). split; [nra|]. rewrite !map_map. f_equal; try ring; try lra. apply map_ext. intro; ring.
  - exists (- k), (k * psimag e). split; [nra|]. rewrite !map_map. f_equal; try ring; try lra. apply map_ext. intro; ring.
  - exists k, b. split; [nra|reflexivity].
Qed.
Lemma np_min_affine k b l : 0 < k -> np_min (map (fun v => k * v + b) l) = res_map (fun v => k * v + b) (np_min l).
Proof.
  intro Hk. destruct l as [|x l]; [reflexivity|]. cbn [map np_min res_map bind]. f_equal. revert x.
  induction l as [|y l IH]; intro x; [reflexivity|]. cbn [map fold_left]. rewrite <- IH. f_equal.
  unfold Rmin. destruct (Rle_dec (k * x + b) (k * y + b)), (Rle_dec x y); try reflexivity; nra.
Qed.

(** ** Parameterised maps *)
Lemma concat_nth {A B} (f : B -> list A) n l : (forall b, In b l -> length (f b) = n) -> forall j k b, nth_error l j = Some b -> (k < n)%nat ->
  nth_error (concat (map f l)) (j * n + k) = nth_error (f b) k.
Proof.
  induction l as [|x l IH]; intros H j k b Hj Hk; [destruct j; discriminate|].
  cbn [map concat]. destruct j as [|j]; cbn [nth_error] in Hj.
  - injection Hj as ->. cbn [Nat.mul plus]. apply nth_error_app1. rewrite H by now left. exact Hk.
  - rewrite nth_error_app2 by (rewrite H by (now left); lia). rewrite H by now left.
    replace (S j * n + k - n)%nat with (j * n + k)%nat by lia. apply IH; auto. intros; apply H; now right.
Qed.
Lemma concat_len {A B} (f : B -> list A) n l : (forall b, In b l -> length (f b) = n) -> length (concat (map f l)) = (length l * n)%nat.
Proof.
  induction l as [|x l IH]; intro H; [reflexivity|]. cbn [map concat length]. rewrite app_length, IH, H; [lia|now left|intros; apply H; now right].
Qed.
Definition surf_pts (p : parameterisation) (n : nat) (psi : R) : list (R * R) := map (fun k => pt_of p psi (angle n k)) (seq 0 n).
Lemma surf_pts_length p n psi : length (surf_pts p n psi) = n.
Proof. unfold surf_pts. now rewrite map_length, seq_length. Qed.
Definition positive (rho : list R) : list R := filter (fun r => Rltb 0 r) rho.
Lemma make_interp_ok p o rho n c : shape (info p) -> (1 <= n)%nat -> positive rho <> [] ->
  make_param_interp p o rho n c = Ok {| pi_param := p; pi_n_points := n;
    pi_nodes := (op_x o, op_z o) :: concat (map (surf_pts p n) (positive rho));
    pi_psi_norm := map (flux_label c 1 0) (1 :: concat (map (fun r => repeat (1 - r) n) (positive rho)));
    pi_o_point := o |}.
Proof.
  intros H Hn Hr. unfold make_param_interp. fold (positive rho). unfold flux_surfaces.
  rewrite (mapM_pure _ (fun psi => SClosed (surf_pts p n psi))) by (intros; apply surface_ok; assumption). cbn [bind].
  destruct (positive rho) as [|r l] eqn:Q; [congruence|]. cbn [map].
  replace 1.0 with 1 by lra. replace 0.0 with 0 by lra.
  rewrite normalise_ok by lra. cbn [bind]. f_equal. f_equal.
  cbn [points concat]. do 2 f_equal. rewrite map_map. reflexivity.
Qed.
