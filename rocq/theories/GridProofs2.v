(** Lemmas for C84 (continued): the sampled cells, the sign of the boundary integrals and the limit of small cells. *)
From Coq Require Import Reals Lra Lia ZArith List Bool.
From Verif Require Import Base Space SpaceProofs SpecSpace Geometry GeometryProofs SpecGeometry SpecConvex ConvexProofs SpecGrid GridProofs.
Open Scope R_scope.

(** ** The centres are a row that covers the coordinates *)
Lemma min_le l lo v : np_min l = Ok lo -> In v l -> lo <= v.
Proof. intros E. apply (proj2 (np_min_spec l lo E)). Qed.
Lemma max_ge l hi v : np_max l = Ok hi -> In v l -> v <= hi.
Proof. intros E. apply (proj2 (np_max_spec l hi E)). Qed.
Lemma centers_row coords o h : 0 < h -> coords <> [] -> exists x0 M, centers coords o h = Ok (row x0 h M) /\ forall v, In v coords -> x0 < v < node x0 h M.
Proof.
  intros Hh N. destruct (centers_ok coords o h N) as [cs E]. revert E. unfold centers. destruct (np_min coords) as [lo| |] eqn:L; cbn [bind]; try discriminate. destruct (np_max coords) as [hi| |] eqn:U; cbn [bind]; try discriminate. intros _.
  set (d := py_mod (o - (lo - 2 * h)) h). assert (D : 0 <= d < h).
  { unfold d, py_mod. set (q := (o - (lo - 2 * h)) / h). destruct (Int_part_spec q) as [A B]. assert (q * h = o - (lo - 2 * h)) by (unfold q; field; lra). nra. }
  set (st := lo - 2 * h + (d - 0.5 * h)). set (n := Z.to_nat (Rceil ((hi + 2 * h - st) / h))). exists (st + 0.5 * h), n. split.
  - f_equal. unfold arange, row. fold st n. rewrite map_map. apply map_ext. intro i. unfold node. ring.
  - intros v Hv. pose proof (min_le _ _ _ L Hv) as A. pose proof (max_ge _ _ _ U Hv) as B. split; [unfold st; lra|]. unfold node.
    destruct (Rceil_spec ((hi + 2 * h - st) / h)) as [C _]. assert (Q : (hi + 2 * h - st) / h * h = hi + 2 * h - st) by (field; lra).
    assert (0 <= (hi + 2 * h - st) / h) by (apply Rmult_le_pos; [unfold st; lra|left; now apply Rinv_0_lt_compat]).
    assert (0 <= Rceil ((hi + 2 * h - st) / h))%Z. { apply le_IZR. lra. }
    unfold n. rewrite INR_IZR_INZ, Z2Nat.id by assumption. nra.
Qed.

(** ** The sampled cells *)
Definition area_edge : R * R -> R * R -> R := exact_edge 0 1.
Definition vol_edge : R * R -> R * R -> R := exact_edge 1 0.
Lemma area_edges l : loop l -> edge_sum area_edge l = edge_sum crs l / 2.
Proof.
  intro H. rewrite <- (x_dz l H). unfold Rdiv. rewrite Rmult_comm, <- edge_sum_scale. apply edge_sum_ext. intros. unfold area_edge, exact_edge. field.
Qed.
Lemma vol_edges l : loop l -> edge_sum vol_edge l = edge_sum (mom fst) l / 3.
Proof.
  intro H. rewrite <- (x2_dz l H). unfold Rdiv. rewrite Rmult_comm, <- edge_sum_scale. apply edge_sum_ext. intros. unfold vol_edge, exact_edge. field.
Qed.
Lemma travel_edges l : travel_x l = edge_sum (fun a b => Rabs (fst b - fst a)) l.
Proof. induction l as [|a l IH]; [reflexivity|]. destruct l as [|b l]; [reflexivity|]. rewrite edge_sum_cons, <- IH. reflexivity. Qed.
Lemma total_volume_sum ss : total_volume ss = sumf svol ss. Proof. reflexivity. Qed.
Lemma sumf_const {A} (k : R) (l : list A) : sumf (fun _ => k) l = INR (length l) * k.
Proof. induction l as [|a l IH]; [cbn; ring|]. rewrite sumf_cons, IH. cbn [length]. rewrite S_INR. ring. Qed.

Section Cells.
  Variables ex l : list (R * R).
  Hypothesis Hs : simple_but ex l.
  Variables (X Zlo Zhi : R).
  Hypothesis Hbox : forall v, In v l -> 0 <= fst v <= X /\ Zlo <= snd v <= Zhi.

  Lemma cells_samples o h ss s c : 0 < h -> (s = 1 \/ s = -1) -> sense ex s l -> crossed_at_most c l -> sample_space_2d mpl_inside l o h = Ok ss ->
    Rabs (s * (INR (length ss) * (h * h)) - edge_sum area_edge l) <= h / 2 * (travel_x l + INR c * (Zhi - Zlo + h)) + INR (length ex) * (INR c + 1) * (h * h) /\
    Rabs (s * (total_volume ss / PI) - edge_sum vol_edge l) <= h / 2 * (2 * X * travel_x l + (2 * X + h / 2) * INR c * (Zhi - Zlo + h)) + 2 * X * (INR (length ex) * (INR c + 1) * (h * h)).
  Proof.
    intros Hh H1 Hsen Hc E. pose proof PI_RGT_0 as Pp. destruct Hs as [L _]. pose proof (loop_nonempty l L) as Ne.
    destruct (sample_cases mpl_inside l o h Hh) as [[E0 _]|(xs & zs & Ex & Ez & F)]; [congruence|]. rewrite F in E. injection E as <-.
    destruct (centers_row (map fst l) (fst o) h Hh) as (x0 & M & Rx & Bx); [destruct l; [congruence|discriminate]|].
    destruct (centers_row (map snd l) (snd o) h Hh) as (z0 & K & Rz & Bz); [destruct l; [congruence|discriminate]|].
    rewrite Ex in Rx. rewrite Ez in Rz. injection Rx as ->. injection Rz as ->.
    destruct (min_snd l Ne) as (va & Ia & Mi). destruct (max_snd l Ne) as (vb & Ib & Ma).
    assert (HX : forall v, In v l -> x0 < fst v < node x0 h M /\ 0 <= fst v <= X) by (intros v Hv; split; [apply Bx, in_map, Hv|now apply Hbox]).
    assert (HZ : forall v, In v l -> z0 <= snd v < node z0 h K /\ snd va <= snd v <= snd vb).
    { intros v Hv. split; [specialize (Bz (snd v) (in_map snd l v Hv)); lra|]. split; [now apply Mi|now apply Ma]. }
    pose proof (Bz _ (in_map snd l va Ia)). pose proof (Bz _ (in_map snd l vb Ib)). pose proof (Mi vb Ib).
    destruct (Hbox va Ia) as [_ [Q1 Q2]]. destruct (Hbox vb Ib) as [Q5 [Q3 Q4]]. pose proof (pos_INR c) as Pc.
    assert (W : INR c * (snd vb - snd va + h) <= INR c * (Zhi - Zlo + h)) by (apply Rmult_le_compat_l; lra).
    split.
    - pose proof (cells_bound l L x0 z0 h 0 1 X (snd va) (snd vb) M K c Hh ltac:(lra) ltac:(lra) HX HZ ltac:(lra) ltac:(lra) ltac:(lra) Hc ex s H1 Hsen) as B.
      replace (cells l x0 z0 h 0 1 M K) with (INR (length (filter (mpl_inside l) (mesh (row x0 h M) (row z0 h K)))) * (h * h)) in B.
      2:{ unfold cells. rewrite <- sumf_const. apply sumf_ext. intros. unfold gg. ring. }
      rewrite map_length. eapply Rle_trans; [exact B|]. apply Rplus_le_compat; [|right; ring]. apply Rmult_le_compat_l; [lra|].
      rewrite travel_edges. rewrite (edge_sum_ext _ (fun a b => Rabs (fst b - fst a))) by (intros; f_equal; unfold GG; ring). unfold lip. lra.
    - pose proof (cells_bound l L x0 z0 h 1 0 X (snd va) (snd vb) M K c Hh ltac:(lra) ltac:(lra) HX HZ ltac:(lra) ltac:(lra) ltac:(lra) Hc ex s H1 Hsen) as B.
      rewrite total_volume_sum, sumf_map. unfold svol at 1. cbn [snd].
      replace (sumf _ _ / PI) with (cells l x0 z0 h 1 0 M K).
      2:{ unfold cells. rewrite (sumf_ext (fun a => 2 * PI * fst a * (h * h)) (fun p => PI * (gg 1 0 (fst p) * (h * h)))) by (intros; unfold gg; ring). rewrite sumf_scale. field. lra. }
      eapply Rle_trans; [exact B|]. apply Rplus_le_compat; [|right; ring]. apply Rmult_le_compat_l; [lra|]. apply Rplus_le_compat.
      + rewrite travel_edges, <- edge_sum_scale. apply edge_sum_le. intros a b Eab. destruct (edge_In l a b Eab) as [I1 I2]. destruct (HX a I1) as [_ A1]. destruct (HX b I2) as [_ A2].
        replace (GG 1 0 (fst b) - GG 1 0 (fst a)) with ((fst b + fst a) * (fst b - fst a)) by (unfold GG; ring). rewrite Rabs_mult. apply Rmult_le_compat_r; [apply Rabs_pos|]. rewrite Rabs_pos_eq; lra.
      + unfold lip. replace (2 * 1 * X + 1 * h / 2 + 0) with (2 * X + h / 2) by field. rewrite !Rmult_assoc. apply Rmult_le_compat_l; [lra|exact W].
  Qed.

  (** Every sampled cell lies between x = 0 and x = X. *)
  Lemma sample_range o h ss t : 0 < h -> sample_space_2d mpl_inside l o h = Ok ss -> In t ss -> 0 <= sx t <= X.
  Proof.
    intros Hh E Ht. destruct (sample_lattice mpl_inside l o h Hh ss E t Ht) as (I & _). apply mpl_inside_box in I. cbn [fst snd] in I. destruct I as ((v & Iv & A) & (w & Iw & B) & _). destruct (Hbox v Iv). destruct (Hbox w Iw). lra.
  Qed.
  Lemma volume_by_count o h ss : 0 < h -> sample_space_2d mpl_inside l o h = Ok ss -> 0 <= total_volume ss / PI <= 2 * X * (INR (length ss) * (h * h)).
  Proof.
    intros Hh E. pose proof PI_RGT_0 as Pp.
    assert (V : forall t, In t ss -> svol t = PI * (2 * sx t * (h * h))) by (intros t Ht; destruct (sample_lattice mpl_inside l o h Hh ss E t Ht) as (_ & _ & ->); ring).
    rewrite total_volume_sum, (sumf_ext svol (fun t => PI * (2 * sx t * (h * h)))) by exact V. rewrite sumf_scale. replace (PI * _ / PI) with (sumf (fun t => 2 * sx t * (h * h)) ss) by (field; lra).
    assert (R : forall t, In t ss -> 0 <= sx t <= X) by (intros t Ht; now apply (sample_range o h ss t Hh E)). clear E V. assert (0 < h * h) by nra.
    induction ss as [|t ss IH]; [cbn; lra|]. rewrite sumf_cons. cbn [length]. rewrite S_INR. destruct IH as [I1 I2]; [intros; apply R; now right|]. specialize (R t (or_introl eq_refl)).
    assert (0 <= sx t * (h * h)) by (apply Rmult_le_pos; lra). assert (sx t * (h * h) <= X * (h * h)) by (apply Rmult_le_compat_r; lra). lra.
  Qed.
End Cells.

(** ** Small cells *)
Lemma crossed_length z l n : crossed z l n -> (n <= length l)%nat.
Proof. induction 1; cbn [length] in *; lia. Qed.
Lemma small_nonneg a B : 0 <= B -> (forall h, 0 < h <= 1 -> - (h * B) <= a) -> 0 <= a.
Proof.
  intros HB H. destruct (Rle_dec 0 a) as [|N]; [assumption|]. exfalso. set (h := Rmin 1 (- a / (2 * (B + 1)))).
  assert (P : 0 < - a / (2 * (B + 1))) by (apply Rdiv_lt_0_compat; lra).
  assert (Hh : 0 < h <= 1) by (unfold h; split; [apply Rmin_glb_lt; lra|apply Rmin_l]).
  assert (h * (2 * (B + 1)) <= - a). { apply Rle_trans with (- a / (2 * (B + 1)) * (2 * (B + 1))); [apply Rmult_le_compat_r; [lra|apply Rmin_r]|]. right. field. lra. }
  specialize (H h Hh). nra.
Qed.
Lemma travel_pos l : 0 <= travel_x l.
Proof. rewrite travel_edges. apply edge_sum_edges. intros. apply Rabs_pos. Qed.

Section Sign.
  Variables ex l : list (R * R).
  Hypothesis Hs : simple_but ex l.
  Variables (X Zlo Zhi : R).
  Hypothesis Hbox : forall v, In v l -> 0 <= fst v <= X /\ Zlo <= snd v <= Zhi.
  Lemma box_order : 0 <= X /\ Zlo <= Zhi.
  Proof. destruct Hs as [(p & r & -> & _) _]. destruct (Hbox p (or_introl eq_refl)). lra. Qed.
  Lemma signs s : (s = 1 \/ s = -1) -> sense ex s l -> 0 <= s * edge_sum area_edge l /\ 0 <= s * edge_sum vol_edge l <= 2 * X * (s * edge_sum area_edge l).
  Proof.
    intros H1 Hsen. destruct box_order as [PX PZ]. pose proof (travel_pos l) as PT. pose proof (pos_INR (length l)) as Pn.
    set (c := length l). set (e := INR (length ex) * (INR c + 1)). assert (Pe : 0 <= e) by (apply Rmult_le_pos; [apply pos_INR|unfold c; lra]).
    set (B1 := travel_x l + INR c * (Zhi - Zlo + 1) + e). set (B2 := 2 * X * travel_x l + (2 * X + 1) * INR c * (Zhi - Zlo + 1) + 2 * X * e).
    assert (N1 : 0 <= B1) by (unfold B1; assert (0 <= INR c * (Zhi - Zlo + 1)) by (apply Rmult_le_pos; [exact Pn|lra]); lra).
    assert (N2 : 0 <= B2). { unfold B2. assert (0 <= 2 * X * travel_x l) by (apply Rmult_le_pos; lra). assert (0 <= (2 * X + 1) * INR c * (Zhi - Zlo + 1)) by (repeat apply Rmult_le_pos; try exact Pn; lra). assert (0 <= 2 * X * e) by (apply Rmult_le_pos; lra). lra. }
    assert (S2 : s * s = 1) by (destruct H1 as [->| ->]; ring).
    assert (K : forall h, 0 < h <= 1 -> exists n v, 0 <= n /\ 0 <= v <= 2 * X * n /\ Rabs (n - s * edge_sum area_edge l) <= h * B1 /\ Rabs (v - s * edge_sum vol_edge l) <= h * B2).
    { intros h Hh. assert (exists ss, sample_space_2d mpl_inside l (0, 0) h = Ok ss) as [ss E].
      { destruct (sample_cases mpl_inside l (0, 0) h ltac:(lra)) as [[E0 _]|(xs & zs & _ & _ & F)]; [|eauto]. exfalso. destruct Hs as [L _]. now apply (loop_nonempty l L). }
      exists (INR (length ss) * (h * h)), (total_volume ss / PI). split; [apply Rmult_le_pos; [apply pos_INR|nra]|]. split; [apply (volume_by_count l X Zlo Zhi Hbox (0, 0)); [lra|exact E]|].
      destruct (cells_samples ex l Hs X Zlo Zhi Hbox (0, 0) h ss s c ltac:(lra) H1 Hsen (fun z n => crossed_length z l n) E) as [A B].
      assert (Sw : forall n y, Rabs (s * n - y) = Rabs (n - s * y)) by (intros n y; destruct H1 as [->| ->]; [f_equal; ring|]; rewrite <- Rabs_Ropp; f_equal; ring). rewrite Sw in A, B.
      split.
      - eapply Rle_trans; [exact A|]. fold e. set (u := INR c * (Zhi - Zlo + h)). assert (u <= INR c * (Zhi - Zlo + 1)) by (unfold u; apply Rmult_le_compat_l; [exact Pn|lra]). assert (0 <= u) by (unfold u; apply Rmult_le_pos; [exact Pn|lra]).
        assert (h * (travel_x l + u + e) <= h * B1) by (apply Rmult_le_compat_l; unfold B1; lra). assert (e * (h * h) <= e * h) by (apply Rmult_le_compat_l; nra).
        assert (0 <= h * (travel_x l + u)) by (apply Rmult_le_pos; lra). lra.
      - eapply Rle_trans; [exact B|]. fold e. set (u := (2 * X + h / 2) * INR c * (Zhi - Zlo + h)). assert (u <= (2 * X + 1) * INR c * (Zhi - Zlo + 1)).
        { unfold u. rewrite !Rmult_assoc. apply Rmult_le_compat; [lra| |lra|apply Rmult_le_compat_l; [exact Pn|lra]]. apply Rmult_le_pos; [exact Pn|lra]. }
        assert (0 <= u) by (unfold u; repeat apply Rmult_le_pos; try exact Pn; lra). assert (0 <= 2 * X * travel_x l) by (apply Rmult_le_pos; lra).
        assert (h * (2 * X * travel_x l + u + 2 * X * e) <= h * B2) by (apply Rmult_le_compat_l; unfold B2; lra).
        assert (2 * X * (e * (h * h)) <= 2 * X * (e * h)) by (apply Rmult_le_compat_l; [lra|]; apply Rmult_le_compat_l; nra).
        assert (0 <= h * (2 * X * travel_x l + u)) by (apply Rmult_le_pos; lra). lra. }
    split; [|split].
    - apply (small_nonneg _ B1 N1). intros h Hh. destruct (K h Hh) as (n & v & A & B & C & D). apply abs_inv in C. lra.
    - apply (small_nonneg _ B2 N2). intros h Hh. destruct (K h Hh) as (n & v & A & B & C & D). apply abs_inv in D. lra.
    - apply Rminus_le. apply Ropp_le_cancel. rewrite Ropp_0. apply (small_nonneg _ (B2 + 2 * X * B1)); [assert (0 <= 2 * X * B1) by (apply Rmult_le_pos; lra); lra|].
      intros h Hh. destruct (K h Hh) as (n & v & A & B & C & D). apply abs_inv in C, D.
      assert (2 * X * n <= 2 * X * (s * edge_sum area_edge l + h * B1)) by (apply Rmult_le_compat_l; lra). lra.
  Qed.
End Sign.
