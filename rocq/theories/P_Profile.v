(** Property theorems C18-C22 (profiles). *)
From Coq Require Import Permutation.
From Verif Require Import Base Profile SpecProfile ProfileProofs.

(** C18: the radius is clamped to [0,1], scalars and arrays alike; arrays are elementwise. *)
Theorem C18_clamped : forall p rho, value p rho = value p (Rmin (Rmax rho 0) 1).
Proof. exact value_clamp. Qed.
Print Assumptions C18_clamped.

Theorem C18_clamped_arrays : forall p rhos,
  values p rhos = values p (map (fun x => Rmin (Rmax x 0) 1) rhos).
Proof.
  intros p rhos; unfold values. induction rhos as [|x l IH]; cbn; [reflexivity|].
  rewrite (value_clamp p x), IH. reflexivity.
Qed.
Print Assumptions C18_clamped_arrays.

Theorem C18_elementwise : forall p rhos vs,
  values p rhos = Ok vs <-> Forall2 (fun x v => value p x = Ok v) rhos vs.
Proof. intros; apply mapM_Ok_Forall2. Qed.
Print Assumptions C18_elementwise.

Example C18_example : value (parabolic_profile 3 2 1) (-7) = Ok 3 /\ value (parabolic_profile 3 2 1) 9 = Ok 0.
Proof.
  rewrite !parab_value by lra. unfold clamp01. split; f_equal.
  - rewrite Rmax_right, Rmin_left by lra. apply parabola_0.
  - rewrite Rmax_left, Rmin_right by lra. apply parabola_1.
Qed.

(** C19: after any sequence of set_scale calls. *)
Definition set_scales (ss : list R) (p : profile) : profile := fold_left (fun q s => set_scale s q) ss p.

Theorem C19_scales_multiply : forall ss p rho,
  value (set_scales ss p) rho =
  match value p rho with Ok v => Ok (product ss * v) | other => other end.
Proof. intros; apply value_set_scales. Qed.
Print Assumptions C19_scales_multiply.

Theorem C19_order_irrelevant : forall ss ss' p rho, Permutation ss ss' ->
  value (set_scales ss p) rho = value (set_scales ss' p) rho.
Proof.
  intros ss ss' p rho H. rewrite !C19_scales_multiply.
  replace (product ss') with (product ss); [reflexivity|].
  unfold product.
  induction H as [|x l l' _ IH|x y l|l1 l2 l3 _ IH1 _ IH2]; cbn in *; [reflexivity|rewrite IH; reflexivity|ring|congruence].
Qed.
Print Assumptions C19_order_irrelevant.

Example C19_example : value (set_scales [2; 5] (parabolic_profile 3 2 1)) 0 = Ok 30.
Proof.
  rewrite C19_scales_multiply, parab_value by lra. unfold clamp01. rewrite Rmax_left, Rmin_left by lra.
  rewrite parabola_0. cbn. f_equal; ring.
Qed.

(** C20 *)
Theorem C20_parabolic_formula : forall core alpha beta rho, 0 < alpha -> 0 < beta -> 0 <= rho <= 1 ->
  value (parabolic_profile core alpha beta) rho = Ok (parabola core alpha beta rho).
Proof. intros. rewrite parab_value by assumption. now rewrite clamp01_id. Qed.
Print Assumptions C20_parabolic_formula.

Theorem C20_parabolic_shape : forall core alpha beta, 0 <= core -> 0 < alpha -> 0 < beta ->
  exists f, (forall rho, value (parabolic_profile core alpha beta) rho = Ok (f rho)) /\
    f 0 = core /\ f 1 = 0 /\ (forall x y, x <= y -> f y <= f x) /\ (forall x, 0 <= f x <= core).
Proof.
  intros core alpha beta Hc Ha Hb. exists (fun rho => parabola core alpha beta (clamp01 rho)).
  split; [intro; now apply parab_value|]. rewrite !clamp01_id by lra.
  repeat split; try apply parabola_0; try apply parabola_1; try (apply parabola_range; assumption).
  intros x y H. apply parabola_mono; auto. now apply (clip_mono 0 1).
Qed.
Print Assumptions C20_parabolic_shape.

Example C20_example : 0 <= 2.5 /\ 0 < 1.5 /\ 0 < 2 /\ value (parabolic_profile 2.5 1.5 2) 0 = Ok 2.5.
Proof.
  repeat split; try lra. rewrite C20_parabolic_formula by lra. now rewrite parabola_0.
Qed.

(** C21 *)
Theorem C21_pedestal_formula : forall core ped sep alpha beta rp rho,
  0 < alpha -> 0 < beta -> 0 < rp < 1 -> 0 <= rho <= 1 ->
  value (pedestal_profile core ped sep alpha beta rp) rho
  = Ok (parabola_on_pedestal core ped sep alpha beta rp rho).
Proof.
  intros core ped sep alpha beta rp rho Ha Hb Hrp Hr. rewrite ped_value by assumption.
  unfold ped_fun, parabola_on_pedestal. cbv zeta. rewrite !clamp01_id by lra.
  destruct (Rlt_dec rho rp); [reflexivity|]. destruct (Req_EM_T rp 1); [lra|reflexivity].
Qed.
Print Assumptions C21_pedestal_formula.

(** All pedestal radii (the argument is clipped to [0,1] by the constructor). *)
Theorem C21_pedestal_shape : forall core ped sep alpha beta rho_ped, 0 < alpha -> 0 < beta ->
  let rp := Rmin (Rmax rho_ped 0) 1 in
  exists f, (forall rho, value (pedestal_profile core ped sep alpha beta rho_ped) rho = Ok (f rho)) /\
    (0 < rp -> f 0 = core) /\ f 1 = sep /\ (rp < 1 -> f rp = ped) /\
    (rp < 1 -> continuity f) /\
    (forall x, Rmin core (Rmin ped sep) <= f x <= Rmax core (Rmax ped sep)) /\
    (sep <= ped <= core -> forall x y, x <= y -> f y <= f x).
Proof.
  intros core ped sep alpha beta rho_ped Ha Hb rp. exists (ped_fun core ped sep alpha beta rp).
  assert (Hrp : 0 <= rp <= 1) by (apply (clip_range 0 1); lra).
  split; [intro; now apply ped_value|].
  repeat split; intros; try (apply ped_fun_0; assumption); try (apply ped_fun_1; assumption);
  try (apply ped_fun_ped; assumption); try (apply ped_fun_continuous; assumption);
  try (apply ped_fun_range; assumption).
  apply ped_fun_mono; try assumption; lra.
Qed.
Print Assumptions C21_pedestal_shape.

(** A pedestal radius of 1 or more: the profile tends to [ped] but jumps to [sep] at the edge. *)
Theorem C21_jump_at_edge : forall core ped sep alpha beta rho_ped, 0 < alpha -> 0 < beta -> 1 <= rho_ped ->
  value (pedestal_profile core ped sep alpha beta rho_ped) 1 = Ok sep /\
  forall eps, 0 < eps -> exists d, 0 < d /\ forall rho, 1 - d < rho < 1 ->
    exists v, value (pedestal_profile core ped sep alpha beta rho_ped) rho = Ok v /\ Rabs (v - ped) < eps.
Proof.
  intros core ped sep alpha beta rho_ped Ha Hb Hr.
  assert (E : clamp01 rho_ped = 1) by (unfold clamp01; rewrite Rmax_left, Rmin_right by lra; reflexivity).
  split.
  - rewrite ped_value, E by assumption. f_equal. apply ped_fun_1; lra.
  - intros eps He. destruct (ped_fun_jump core ped sep alpha beta Ha Hb eps He) as (d & Hd & H).
    exists d; split; [exact Hd|]. intros rho Hrho. eexists; split; [rewrite ped_value, E by assumption; reflexivity|].
    now apply H.
Qed.
Print Assumptions C21_jump_at_edge.

(** A pedestal radius of 0 or less: the core value is never used. *)
Theorem C21_core_unused : forall core core' ped sep alpha beta rho_ped rho,
  0 < alpha -> 0 < beta -> rho_ped <= 0 ->
  value (pedestal_profile core ped sep alpha beta rho_ped) rho
  = value (pedestal_profile core' ped sep alpha beta rho_ped) rho.
Proof.
  intros core core' ped sep alpha beta rho_ped rho Ha Hb Hr. rewrite !ped_value by assumption.
  assert (E : clamp01 rho_ped = 0) by (unfold clamp01; rewrite Rmax_right, Rmin_left by lra; reflexivity).
  rewrite E. unfold ped_fun. cbv zeta.
  assert (0 <= clamp01 rho <= 1) by (apply (clip_range 0 1); lra).
  destruct (Rlt_dec (clamp01 rho) 0); [lra|reflexivity].
Qed.
Print Assumptions C21_core_unused.

(** With the pedestal radius at (or beyond) the edge and nothing at the pedestal and the edge, the pedestal profile is the
    parabolic profile, at every rho. *)
Theorem C21_no_pedestal : forall core alpha beta rho_ped rho, 0 < alpha -> 0 < beta -> 1 <= rho_ped ->
  value (pedestal_profile core 0 0 alpha beta rho_ped) rho = value (parabolic_profile core alpha beta) rho.
Proof.
  intros core alpha beta rho_ped rho Ha Hb Hr. rewrite ped_value, parab_value by assumption. f_equal.
  assert (E : clamp01 rho_ped = 1) by (unfold clamp01; rewrite Rmax_left, Rmin_right by lra; reflexivity). rewrite E.
  assert (B : 0 <= clamp01 rho <= 1) by (apply (clip_range 0 1); lra). unfold ped_fun, parabola. cbv zeta.
  destruct (Rlt_dec (clamp01 rho) 1) as [L|L].
  - replace (clamp01 rho / 1) with (clamp01 rho) by field. ring.
  - destruct (Req_EM_T 1 1) as [_|N]; [|congruence]. replace (clamp01 rho) with 1 by lra.
    symmetry. exact (parabola_1 core alpha beta).
Qed.
Print Assumptions C21_no_pedestal.

Example C21_example :
  value (pedestal_profile 25.9 5.5 0.1 1.45 2 0.94) 0 = Ok 25.9 /\
  value (pedestal_profile 25.9 5.5 0.1 1.45 2 0.94) 0.94 = Ok 5.5 /\
  value (pedestal_profile 25.9 5.5 0.1 1.45 2 0.94) 1 = Ok 0.1 /\ 0.1 <= 5.5 <= 25.9.
Proof.
  repeat split; try lra; rewrite ped_value by lra; rewrite (clamp01_id 0.94) by lra; f_equal.
  - apply ped_fun_0; lra.
  - apply ped_fun_ped; lra.
  - apply ped_fun_1; lra.
Qed.

(** C22: [t] is the table of (radius, value) rows given to DataProfile. *)
Definition data_value (t : list (R * R)) (rho : R) : res R :=
  do p <- data_profile (map snd t) (map fst t) 1; value p rho.

Lemma data_value_ir t rho : distinct_radii t -> t <> [] -> interp_result t (clamp01 rho) (data_value t rho).
Proof.
  intros Hd Hne. unfold data_value. fold (rows_profile t). rewrite rows_profile_ok by exact Hne.
  now apply data_value_char.
Qed.

Theorem C22_nodes : forall t x y, distinct_radii t -> In (x, y) t -> 0 <= x <= 1 -> data_value t x = Ok y.
Proof.
  intros t x y Hd Hi Hx. assert (t <> []) by (intros ->; destruct Hi).
  eapply ir_at_node; eauto. rewrite <- (clamp01_id x) at 1 by exact Hx. now apply data_value_ir.
Qed.
Print Assumptions C22_nodes.

Theorem C22_straight_lines : forall t x0 y0 x1 y1 x, distinct_radii t -> neighbours t (x0, y0) (x1, y1) ->
  0 <= x <= 1 -> x0 < x < x1 -> data_value t x = Ok (y0 + (y1 - y0) * ((x - x0) / (x1 - x0))).
Proof.
  intros t x0 y0 x1 y1 x Hd Hn Hx Hv. assert (t <> []) by (intros ->; destruct Hn as [[] _]).
  change (data_value t x = Ok (line (x0, y0) (x1, y1) x)).
  eapply ir_between; eauto. rewrite <- (clamp01_id x) at 1 by exact Hx. now apply data_value_ir.
Qed.
Print Assumptions C22_straight_lines.

Theorem C22_error_iff_outside : forall t rho, distinct_radii t -> t <> [] ->
  (data_value t rho = Err EValue <-> ~ inside_table t (Rmin (Rmax rho 0) 1)) /\
  (inside_table t (Rmin (Rmax rho 0) 1) -> exists y, data_value t rho = Ok y).
Proof.
  intros t rho Hd Hne. pose proof (data_value_ir t rho Hd Hne) as H.
  pose proof (ir_error t (clamp01 rho) _ H) as E. split; [exact E|].
  intro Hi. destruct (ir_ok_or_error t _ _ H) as [h|h]; [|exact h]. apply E in h; contradiction.
Qed.
Print Assumptions C22_error_iff_outside.

Theorem C22_between_table_values : forall t rho v, distinct_radii t -> data_value t rho = Ok v ->
  (exists p, In p t /\ snd p <= v) /\ (exists q, In q t /\ v <= snd q).
Proof.
  intros t rho v Hd Hv. assert (t <> []) by (intros ->; cbn in Hv; discriminate).
  eapply ir_bounds with (v := clamp01 rho). rewrite <- Hv. now apply data_value_ir.
Qed.
Print Assumptions C22_between_table_values.

Theorem C22_monotone : forall t rho rho' v v', distinct_radii t -> table_monotone t -> rho <= rho' ->
  data_value t rho = Ok v -> data_value t rho' = Ok v' -> v <= v'.
Proof.
  intros t rho rho' v v' Hd Hm Hle Hv Hv'. assert (t <> []) by (intros ->; cbn in Hv; discriminate).
  eapply (ir_monotone t Hd (clamp01 rho) (clamp01 rho')); eauto.
  - now apply (clip_mono 0 1).
  - rewrite <- Hv. now apply data_value_ir.
  - rewrite <- Hv'. now apply data_value_ir.
Qed.
Print Assumptions C22_monotone.

Theorem C22_row_order_irrelevant : forall t t' rho, distinct_radii t -> Permutation t t' ->
  data_value t rho = data_value t' rho.
Proof.
  intros t t' rho Hd HP. destruct t as [|p t]; [apply Permutation_nil in HP; subst; reflexivity|].
  assert (t' <> []) by (intros ->; apply Permutation_sym, Permutation_nil in HP; discriminate).
  unfold data_value. fold (rows_profile (p :: t)) (rows_profile t').
  rewrite !rows_profile_ok by (assumption || congruence). cbn [bind].
  replace (sort_pairs t') with (sort_pairs (p :: t)); [reflexivity|].
  apply sorted_perm_eq.
  - now apply sort_pairs_strict.
  - apply sort_pairs_strict. unfold distinct_radii. eapply Permutation_NoDup; [|exact Hd]. now apply Permutation_map.
  - rewrite sort_pairs_perm, HP. symmetry; apply sort_pairs_perm.
Qed.
Print Assumptions C22_row_order_irrelevant.

Theorem C22_bad_arrays_rejected : forall vals rho scale,
  data_profile vals rho scale = Err EValue <-> length vals <> length rho \/ rho = [].
Proof.
  intros vals rho scale. unfold data_profile.
  destruct (Nat.eqb_spec (length rho) (length vals)) as [E|E].
  - destruct rho; split; try tauto; try discriminate. intros [H|H]; [congruence|discriminate].
  - split; auto; intros; left; congruence.
Qed.
Print Assumptions C22_bad_arrays_rejected.

Example C22_example : distinct_radii [(1, 10); (0, 40); (0.5, 30)] /\
  neighbours [(1, 10); (0, 40); (0.5, 30)] (0.5, 30) (1, 10) /\
  data_value [(1, 10); (0, 40); (0.5, 30)] 0.75 = Ok 20 /\
  data_value [(1, 10); (0, 40); (0.5, 30)] 7 = Ok 10 /\
  data_value [(0.9, 10); (0.5, 30)] 7 = Err EValue.
Proof.
  assert (Hd : distinct_radii [(1, 10); (0, 40); (0.5, 30)]).
  { unfold distinct_radii; cbn. repeat constructor; cbn; intuition lra. }
  assert (Hn : neighbours [(1, 10); (0, 40); (0.5, 30)] (0.5, 30) (1, 10)).
  { repeat split; cbn; auto; try lra. intros r [<-|[<-|[<-|[]]]]; cbn; lra. }
  repeat split; auto; try (apply Hn).
  - rewrite (C22_straight_lines _ 0.5 30 1 10 0.75 Hd Hn) by lra. f_equal. lra.
  - assert (Ec : clamp01 7 = clamp01 1) by (unfold clamp01; rewrite Rmax_left, Rmin_right, Rmax_left, Rmin_right by lra; reflexivity).
    assert (E : data_value [(1, 10); (0, 40); (0.5, 30)] 7 = data_value [(1, 10); (0, 40); (0.5, 30)] 1).
    { unfold data_value. fold (rows_profile [(1, 10); (0, 40); (0.5, 30)]). rewrite rows_profile_ok by discriminate.
      cbn [bind]. rewrite (value_clamp _ 7), Ec, <- value_clamp. reflexivity. }
    rewrite E. apply C22_nodes; [exact Hd|cbn; auto|lra].
  - apply C22_error_iff_outside; [unfold distinct_radii; cbn; repeat constructor; cbn; intuition lra|discriminate|].
    intros [_ [q [[<-|[<-|[]]] Hq]]]; cbn in Hq; rewrite Rmax_left, Rmin_right in Hq; lra.
Qed.
