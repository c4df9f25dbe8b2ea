(** Lemmas for C101. *)
From Coq Require Import ZArith Bool Reals Lra Lia List Permutation Sorted.
From Flocq Require Import Core.Core Plus_error Mult_error Relative IEEE754.BinarySingleNaN.
From Verif Require Import Base FloatComp FloatCompProofs FloatCompAcc FloatSource SpecFloatSource FloatSourceProofs FloatSpace SpecFloatSpace FloatSpaceProofs.
From Verif Require Import Profile SpecProfile ProfileProofs FloatProfile SpecFloatProfile FloatProfileProofs FloatPedProofs.
Open Scope R_scope.
Local Instance p53tb : Prec_gt_0 53 := eq_refl.
Local Notation bp := (bpow radix2).


(** ** Sorting *)
Definition realp (p : f64 * f64) : R * R := (B2R (fst p), B2R (snd p)).
Lemma insert_row_real (p : f64 * f64) (l : list (f64 * f64)) : is_finite (fst p) = true -> Forall (fun q : f64 * f64 => is_finite (fst q) = true) l ->
  map realp (insert_row64 p l) = insert_pair (realp p) (map realp l).
Proof.
  intros Fp. induction 1 as [|q l Fq Fl IH]; cbn [insert_row64 map insert_pair]; [reflexivity|]. cbn [realp fst].
  destruct (Rleb_spec (B2R (fst q)) (B2R (fst p))) as [L|L].
  - assert (Bleb (fst q) (fst p) = true) as -> by (now apply leb_val). cbn [map]. now rewrite IH.
  - apply Rnot_le_lt in L. assert (Bleb (fst q) (fst p) = false) as -> by (now apply leb_val_f). reflexivity.
Qed.
Lemma insert_row_perm p l : Permutation (insert_row64 p l) (p :: l).
Proof. induction l as [|q l IH]; cbn [insert_row64]; [reflexivity|]. destruct (Bleb _ _); [|reflexivity]. rewrite IH. apply perm_swap. Qed.
Lemma sort_rows_acc (l : list (f64 * f64)) : forall acc : list (f64 * f64), Forall (fun q : f64 * f64 => is_finite (fst q) = true) l -> Forall (fun q : f64 * f64 => is_finite (fst q) = true) acc ->
  map realp (fold_left (fun acc p => insert_row64 p acc) l acc) = fold_left (fun acc p => insert_pair p acc) (map realp l) (map realp acc) /\
  Permutation (fold_left (fun acc p => insert_row64 p acc) l acc) (l ++ acc).
Proof.
  induction l as [|p l IH]; intros acc Fl Fa; cbn [fold_left map app]; [split; reflexivity|]. inversion Fl as [|? ? Fp Fl']; subst.
  destruct (IH (insert_row64 p acc) Fl') as [A B].
  - apply Forall_forall. intros q Hq. apply (Permutation_in _ (insert_row_perm p acc)) in Hq. destruct Hq as [<-|Hq]; [exact Fp|]. rewrite Forall_forall in Fa. now apply Fa.
  - split; [now rewrite A, insert_row_real|]. rewrite B, insert_row_perm. symmetry. apply Permutation_middle.
Qed.
Lemma sort_rows_ok (l : list (f64 * f64)) : Forall (fun q : f64 * f64 => is_finite (fst q) = true) l ->
  map realp (sort_rows64 l) = sort_pairs (map realp l) /\ Permutation (sort_rows64 l) l.
Proof. intro F. destruct (sort_rows_acc l [] F (Forall_nil _)) as [A B]. rewrite app_nil_r in B. split; assumption. Qed.

(** ** One straight piece *)
Lemma scale_quot M X : moderate M -> 0 <= M -> moderate X -> 0 < X -> scale (M / X).
Proof.
  intros HM PM HX PX. apply moderate_bp in HM. apply moderate_bp in HX. rewrite Rabs_pos_eq in HM, HX by lra. pose proof (bpow_gt_0 radix2 (-90)) as P0. unfold Rdiv.
  assert (bp (-90) <= / X <= bp 90). { split.
    - replace (bp (-90)) with (/ bp 90) by (symmetry; apply (bpow_opp radix2 90)). apply Rinv_le_contravar; lra.
    - replace (bp 90) with (/ bp (-90)) by (symmetry; apply (bpow_opp radix2 (-90))). apply Rinv_le_contravar; lra. }
  assert (bp (-90) * bp (-90) <= M * / X <= bp 90 * bp 90) as B by (split; apply Rmult_le_compat; lra). rewrite <- !bpow_plus in B.
  pose proof (bpow_le radix2 (-200) (-90 + -90) ltac:(lia)). pose proof (bpow_le radix2 (90 + 90) 200 ltac:(lia)). unfold scale. lra.
Qed.
Lemma segment_ok fused x0 y0 x1 y1 v M : is_finite x0 = true -> is_finite y0 = true -> is_finite x1 = true -> is_finite y1 = true -> is_finite v = true ->
  moderate M -> 0 <= M -> Rabs (B2R y0) <= M -> Rabs (B2R y1) <= M -> moderate (B2R x1 - B2R x0) -> B2R x0 < B2R v < B2R x1 ->
  let r := muladd64 fused (fdiv (fsub y1 y0) (fsub x1 x0)) (fsub v x0) y0 in
  is_finite r = true /\ Rabs (B2R r) <= 4 * M /\
  Rabs (B2R r - ((B2R y1 - B2R y0) / (B2R x1 - B2R x0) * (B2R v - B2R x0) + B2R y0)) <= 17 * uu * M.
Proof.
  intros Fx0 Fy0 Fx1 Fy1 Fv MM PM B0 B1 MX Hv. pose proof uu_small as U. pose proof (moderate_scale _ MM) as SM. rewrite Rabs_pos_eq in SM by exact PM.
  assert (UM : uu * M <= / 1024 * M) by (apply Rmult_le_compat_r; lra). pose proof (moderate_scale _ MX) as SX.
  pose proof (rel_sub x1 x0) as Eb. pose proof (rel_sub v x0) as Ew.
  set (X := B2R x1 - B2R x0) in *. set (V := B2R v - B2R x0) in *. assert (HV : 0 < V < X) by (unfold V, X; lra). rewrite (Rabs_pos_eq X) in SX, Eb by lra. rewrite (Rabs_pos_eq V) in Ew by lra.
  assert (Fb : is_finite (fsub x1 x0) = true /\ B2R (fsub x1 x0) = rnd X).
  { destruct (rnd_err X 1 X SX (k30 1 ltac:(lra))) as [_ L]; [rewrite Rabs_pos_eq; lra|]. destruct (fsub_cases x1 x0 Fx1 Fx0 L) as [A B]. auto. }
  assert (Fw : is_finite (fsub v x0) = true /\ B2R (fsub v x0) = rnd V).
  { destruct (rnd_err X 1 V SX (k30 1 ltac:(lra))) as [_ L]; [rewrite Rabs_pos_eq; lra|]. destruct (fsub_cases v x0 Fv Fx0 L) as [A B]. auto. }
  destruct Fb as [Fb Vb]. destruct Fw as [Fw Vw]. rewrite <- Vb in Eb. rewrite <- Vw in Ew. set (b := fsub x1 x0) in *. set (w := fsub v x0) in *.
  assert (Hb : X * (1 - uu) <= B2R b). { pose proof (Rle_abs (- (B2R b - X))) as T. rewrite Rabs_Ropp in T. lra. } assert (Pb : 0 < B2R b) by nra.
  assert (Hw : 0 <= B2R w <= X * (1 + uu)). { split; [rewrite Vw, <- rnd_0; apply rnd_mono; lra|]. pose proof (Rle_abs (B2R w - V)) as T. nra. }
  assert (D0 : Rabs (B2R y1 - B2R y0) <= 2 * M). { unfold Rminus. eapply Rle_trans; [apply Rabs_triang|]. rewrite Rabs_Ropp. lra. }
  destruct (fsub_about M 2 y1 y0 SM (k30 2 ltac:(lra)) Fy1 Fy0 D0) as [Fd Ed]. set (d := fsub y1 y0) in *. set (D := B2R y1 - B2R y0) in *.
  assert (Bd : Rabs (B2R d) <= 2 * M + / 256 * M). { replace (B2R d) with ((B2R d - D) + D) by ring. eapply Rle_trans; [apply Rabs_triang|]. lra. }
  assert (IX : 0 < / X) by (apply Rinv_0_lt_compat; lra). assert (Ib : 0 < / B2R b) by (apply Rinv_0_lt_compat; lra).
  assert (IbX : / B2R b <= / X * (1 + / 512)). { apply (Rmult_le_reg_r (B2R b)); [lra|]. rewrite Rinv_l by lra. apply (Rmult_le_reg_l X); [lra|]. replace (X * (/ X * (1 + / 512) * B2R b)) with ((1 + / 512) * B2R b) by (field; lra). nra. }
  assert (MIX : 0 <= M * / X) by (apply Rmult_le_pos; lra).
  assert (Bq : Rabs (B2R d / B2R b) <= (2 + / 64) * (M / X)).
  { unfold Rdiv. rewrite Rabs_mult, (Rabs_pos_eq (/ B2R b)) by lra. apply Rle_trans with ((2 * M + / 256 * M) * (/ X * (1 + / 512))); [apply Rmult_le_compat; try lra; apply Rabs_pos|].
    replace ((2 * M + / 256 * M) * (/ X * (1 + / 512))) with ((2 + / 256) * (1 + / 512) * (M * / X)) by ring. apply Rmult_le_compat_r; lra. }
  destruct (fdiv_about (M / X) 3 d b (scale_quot M X MM PM MX ltac:(lra)) (k30 3 ltac:(lra)) Fd Fb) as [Fs Es]; [lra| |]. { apply Rle_trans with (1 := Bq). unfold Rdiv in *. lra. }
  set (s := fdiv d b) in *. unfold Rdiv in Bq, Es |- *.
  assert (UMX : uu * (M * / X) <= / 1024 * (M * / X)) by (apply Rmult_le_compat_r; lra). assert (UMX0 : 0 <= uu * (M * / X)) by (apply Rmult_le_pos; lra).
  assert (Bs : Rabs (B2R s) <= (2 + / 32) * (M * / X)). { replace (B2R s) with ((B2R s - B2R d * / B2R b) + B2R d * / B2R b) by ring. eapply Rle_trans; [apply Rabs_triang|]. lra. }
  assert (E1 : Rabs (B2R d * / B2R b - D * / X) <= 4 * (1 + / 512) * (uu * (M * / X))).
  { replace (B2R d * / B2R b - D * / X) with (((B2R d - D) + - (D * / X * (B2R b - X))) * / B2R b) by (field; lra). rewrite Rabs_mult, (Rabs_pos_eq (/ B2R b)) by lra.
    assert (T : Rabs (B2R d - D + - (D * / X * (B2R b - X))) <= 4 * (uu * M)).
    { eapply Rle_trans; [apply Rabs_triang|]. rewrite Rabs_Ropp, !Rabs_mult, (Rabs_pos_eq (/ X)) by lra. assert (Rabs D * / X * Rabs (B2R b - X) <= 2 * M * / X * (uu * X)).
      { apply Rmult_le_compat; [apply Rmult_le_pos; [apply Rabs_pos|lra]|apply Rabs_pos| |exact Eb]. apply Rmult_le_compat_r; lra. }
      replace (2 * M * / X * (uu * X)) with (2 * (uu * M)) in H by (field; lra). lra. }
    apply Rle_trans with (4 * (uu * M) * (/ X * (1 + / 512))); [apply Rmult_le_compat; try assumption; [apply Rabs_pos|lra]|]. right. ring. }
  assert (E2 : Rabs (B2R s - D * / X) <= 8 * (uu * (M * / X)) - / 2 * (uu * (M * / X))).
  { replace (B2R s - D * / X) with ((B2R s - B2R d * / B2R b) + (B2R d * / B2R b - D * / X)) by ring. eapply Rle_trans; [apply Rabs_triang|]. lra. }
  assert (UMM : 0 <= uu * M) by (apply Rmult_le_pos; lra).
  assert (E3 : Rabs (B2R s * B2R w - D * / X * V) <= 10 * (uu * M)).
  { replace (B2R s * B2R w - D * / X * V) with ((B2R s - D * / X) * B2R w + D * / X * (B2R w - V)) by ring. eapply Rle_trans; [apply Rabs_triang|]. rewrite !Rabs_mult, (Rabs_pos_eq (B2R w)), (Rabs_pos_eq (/ X)) by lra.
    assert (Rabs (B2R s - D * / X) * B2R w <= (8 * (uu * (M * / X)) - / 2 * (uu * (M * / X))) * (X * (1 + uu))) as H1 by (apply Rmult_le_compat; try lra; apply Rabs_pos).
    replace ((8 * (uu * (M * / X)) - / 2 * (uu * (M * / X))) * (X * (1 + uu))) with ((15 / 2) * (1 + uu) * (uu * M)) in H1 by (field; lra).
    assert (Rabs D * / X * Rabs (B2R w - V) <= 2 * M * / X * (uu * X)) as H2.
    { apply Rmult_le_compat; [apply Rmult_le_pos; [apply Rabs_pos|lra]|apply Rabs_pos| |]. { apply Rmult_le_compat_r; lra. } apply Rle_trans with (1 := Ew). apply Rmult_le_compat_l; lra. }
    replace (2 * M * / X * (uu * X)) with (2 * (uu * M)) in H2 by (field; lra). assert (15 / 2 * (1 + uu) * (uu * M) <= 15 / 2 * (1 + / 1024) * (uu * M)) by (apply Rmult_le_compat_r; lra). lra. }
  assert (Bw : Rabs (B2R s * B2R w) <= 2 * M + / 16 * M).
  { rewrite Rabs_mult, (Rabs_pos_eq (B2R w)) by lra. apply Rle_trans with ((2 + / 32) * (M * / X) * (X * (1 + uu))); [apply Rmult_le_compat; try lra; apply Rabs_pos|].
    replace ((2 + / 32) * (M * / X) * (X * (1 + uu))) with ((2 + / 32) * (1 + uu) * M) by (field; lra). assert ((2 + / 32) * (1 + uu) * M <= (2 + / 32) * (1 + / 1024) * M) by (apply Rmult_le_compat_r; lra). lra. }
  cbv zeta. unfold muladd64. destruct fused.
  - assert (B9 : Rabs (B2R s * B2R w + B2R y0) <= 4 * M - / 2 * M) by (eapply Rle_trans; [apply Rabs_triang|]; lra).
    destruct (fma_about M 4 s w y0 SM (k30 4 ltac:(lra)) Fs Fw Fy0) as [Fr Er]; [lra|]. set (r := ffma s w y0) in *. split; [exact Fr|]. split.
    + replace (B2R r) with ((B2R r - (B2R s * B2R w + B2R y0)) + (B2R s * B2R w + B2R y0)) by ring. eapply Rle_trans; [apply Rabs_triang|]. lra.
    + replace (B2R r - (D * / X * V + B2R y0)) with ((B2R r - (B2R s * B2R w + B2R y0)) + (B2R s * B2R w - D * / X * V)) by ring. eapply Rle_trans; [apply Rabs_triang|]. lra.
  - destruct (fmul_about M 3 s w SM (k30 3 ltac:(lra)) Fs Fw) as [Fm Em]; [lra|]. set (m := fmul s w) in *.
    assert (Bm : Rabs (B2R m) <= 2 * M + / 8 * M). { replace (B2R m) with ((B2R m - B2R s * B2R w) + B2R s * B2R w) by ring. eapply Rle_trans; [apply Rabs_triang|]. lra. }
    assert (B9 : Rabs (B2R m + B2R y0) <= 4 * M - / 2 * M) by (eapply Rle_trans; [apply Rabs_triang|]; lra).
    destruct (fadd_about M 4 m y0 SM (k30 4 ltac:(lra)) Fm Fy0) as [Fr Er]; [lra|]. set (r := fadd m y0) in *. split; [exact Fr|]. split.
    + replace (B2R r) with ((B2R r - (B2R m + B2R y0)) + (B2R m + B2R y0)) by ring. eapply Rle_trans; [apply Rabs_triang|]. lra.
    + replace (B2R r - (D * / X * V + B2R y0)) with ((B2R r - (B2R m + B2R y0)) + ((B2R m - B2R s * B2R w) + (B2R s * B2R w - D * / X * V))) by ring. eapply Rle_trans; [apply Rabs_triang|].
      pose proof (Rabs_triang (B2R m - B2R s * B2R w) (B2R s * B2R w - D * / X * V)). lra.
Qed.

(** ** The whole table *)
Definition row_ok (M : R) (p : f64 * f64) : Prop := is_finite (fst p) = true /\ is_finite (snd p) = true /\ Rabs (B2R (snd p)) <= M.
Definition apart (l : list (f64 * f64)) : Prop := forall p q, In p l -> In q l -> B2R (fst p) <> B2R (fst q) -> moderate (B2R (fst p) - B2R (fst q)).
Lemma interp_from_ok fused M v : moderate M -> 0 <= M -> is_finite v = true -> forall rest x0 y0,
  Forall (row_ok M) ((x0, y0) :: rest) -> apart ((x0, y0) :: rest) -> StronglySorted ltx (map realp ((x0, y0) :: rest)) -> B2R x0 <= B2R v ->
  let r := interp_from64 fused x0 y0 rest v in
  is_finite r = true /\ Rabs (B2R r) <= 4 * M /\ Rabs (B2R r - interp_from (B2R x0) (B2R y0) (map realp rest) (B2R v)) <= 17 * uu * M /\
  (forall x y, In (x, y) ((x0, y0) :: rest) -> B2R x = B2R v -> r = y).
Proof.
  intros MM PM Fv. pose proof uu_small as U. assert (UM : 0 <= uu * M) by (apply Rmult_le_pos; lra).
  induction rest as [|[x1 y1] rest IH]; intros x0 y0 Hr Ha Hs Hx.
  - cbn [interp_from64 map interp_from]. inversion Hr as [|? ? (F0 & G0 & B0) _]; subst. cbn [fst snd] in *. split; [exact G0|]. split; [lra|]. split; [rewrite Rminus_eq_0, Rabs_R0; lra|].
    intros x y [E|[]] _. now injection E.
  - inversion Hr as [|? ? (F0 & G0 & B0) Hr']; subst. inversion Hr' as [|? ? (F1 & G1 & B1) Hr'']; subst. cbn [fst snd] in *.
    cbn [map] in Hs. inversion Hs as [|? ? Hs' Hf]; subst. pose proof (Forall_inv Hf) as L01. unfold ltx in L01. cbn [realp fst] in L01.
    cbn [interp_from64 map interp_from realp fst snd]. destruct (Rleb_spec (B2R x1) (B2R v)) as [L|L].
    + assert (Bleb x1 v = true) as -> by (now apply leb_val). destruct (IH x1 y1 Hr') as (A & B & C & N); [|exact Hs'|exact L|].
      { intros p q Hp Hq. apply Ha; now right. } split; [exact A|]. split; [exact B|]. split; [exact C|].
      intros x y [E|Hi] Ev; [|now apply (N x y)]. injection E as -> ->. lra.
    + apply Rnot_le_lt in L. assert (Bleb x1 v = false) as -> by (now apply leb_val_f). destruct (Req_dec (B2R x0) (B2R v)) as [E|E].
      * assert (Beqb x0 v = true) as -> by (now apply eqb_val). split; [exact G0|]. split; [lra|]. split.
        -- rewrite <- E. replace (B2R y0 - ((B2R y1 - B2R y0) / (B2R x1 - B2R x0) * (B2R x0 - B2R x0) + B2R y0)) with 0 by ring. rewrite Rabs_R0. lra.
        -- intros x y [Ey|Hi] Ev; [now injection Ey|]. exfalso. assert (Hj : In (realp (x, y)) (map realp ((x1, y1) :: rest))) by (now apply in_map).
           rewrite Forall_forall in Hf. specialize (Hf _ Hj). unfold ltx in Hf. cbn [realp fst] in Hf. lra.
      * assert (Beqb x0 v = false) as -> by (now apply eqb_val_f). destruct (segment_ok fused x0 y0 x1 y1 v M) as (A & B & C); try assumption; try lra.
        { apply (Ha (x1, y1) (x0, y0)); [right; now left|now left|cbn [fst]; lra]. }
        cbv zeta in *. set (r := muladd64 _ _ _ _) in *. assert (is_nan r = false) as -> by (now apply not_nan). split; [exact A|]. split; [exact B|]. split; [exact C|].
        intros x y Hi Ev. exfalso. destruct Hi as [Ey|[Ey|Hi]]; [injection Ey as -> ->; lra|injection Ey as -> ->; lra|].
        assert (Hj : In (realp (x, y)) (map realp rest)) by (now apply in_map). inversion Hs' as [|? ? _ Hf1]; subst. rewrite Forall_forall in Hf1. specialize (Hf1 _ Hj). unfold ltx in Hf1. cbn [realp fst] in Hf1. lra.
Qed.
Lemma last_x_real rest : forall x0, B2R (last_x64 x0 rest) = last_x (B2R x0) (map realp rest).
Proof. induction rest as [|[x1 y1] rest IH]; intros x0; cbn [last_x64 map last_x realp fst]; [reflexivity|apply IH]. Qed.
Lemma last_x_fin M rest : forall x0, is_finite x0 = true -> Forall (row_ok M) rest -> is_finite (last_x64 x0 rest) = true.
Proof. induction rest as [|[x1 y1] rest IH]; intros x0 F Hr; cbn [last_x64]; [exact F|]. inversion Hr as [|? ? (F1 & _) Hr']; subst. now apply IH. Qed.

Lemma table_ok fused M t v : moderate M -> 0 <= M -> is_finite v = true -> t <> [] -> sane_table t M ->
  match interp1d_call64 fused (sort_rows64 t) v with
  | Err e => e = EValue /\ ~ inside_table (real_rows t) (B2R v)
  | NonFinite => False
  | Ok r => is_finite r = true /\ inside_table (real_rows t) (B2R v) /\ Rabs (B2R r) <= 4 * M /\
      (forall x y, In (x, y) t -> B2R x = B2R v -> r = y) /\
      (forall p q, neighbours (real_rows t) p q -> fst p < B2R v < fst q -> Rabs (B2R r - line p q (B2R v)) <= 17 * uu * M)
  end.
Proof.
  intros MM PM Fv Hne (Hr & Hd & Ha). change (real_rows t) with (map realp t) in *.
  assert (Ff : Forall (fun q : f64 * f64 => is_finite (fst q) = true) t) by (apply Forall_forall; intros q Hq; apply (Hr q Hq)).
  destruct (sort_rows_ok t Ff) as [Es Ps]. set (st := sort_rows64 t) in *.
  assert (Hs : StronglySorted ltx (map realp st)) by (rewrite Es; now apply sort_pairs_strict).
  assert (Hr' : Forall (row_ok M) st) by (apply Forall_forall; intros q Hq; apply Hr, (Permutation_in _ Ps), Hq).
  assert (Ha' : apart st) by (intros p q Hp Hq; apply Ha; now apply (Permutation_in _ Ps)).
  assert (IR : interp_result (map realp t) (B2R v) (interp1d_call (map realp st) (B2R v))).
  { apply interp_result_perm with (map realp st); [now apply Permutation_map|]. now apply interp1d_call_char. }
  assert (Pin : forall p, In p t -> In p st) by (intros p; apply Permutation_in; now symmetry).
  destruct st as [|[x0 y0] rest] eqn:Est. { exfalso. apply Permutation_nil in Ps. contradiction. }
  pose proof (Forall_inv Hr') as (F0 & G0 & B0). cbn [fst snd] in F0, G0, B0. pose proof (Forall_inv_tail Hr') as Hr2.
  pose proof (ir_error _ _ _ IR) as IE. pose proof (ir_ok_or_error _ _ _ IR) as IO.
  cbn [interp1d_call64]. cbn [map interp1d_call realp fst snd] in IR, IE, IO.
  destruct (Rltb_spec (B2R v) (B2R x0)) as [L|L].
  - assert (Bltb v x0 = true) as -> by (now apply ltb_val). split; [reflexivity|]. now apply IE.
  - apply Rnot_lt_le in L. assert (Bltb v x0 = false) as -> by (now apply ltb_val_f). pose proof (last_x_fin M rest x0 F0 Hr2) as Fl. rewrite <- (last_x_real rest x0) in IR, IE, IO.
    destruct (Rltb_spec (B2R (last_x64 x0 rest)) (B2R v)) as [L'|L'].
    + assert (Bltb (last_x64 x0 rest) v = true) as -> by (now apply ltb_val). split; [reflexivity|]. now apply IE.
    + apply Rnot_lt_le in L'. assert (Bltb (last_x64 x0 rest) v = false) as -> by (now apply ltb_val_f). rewrite (not_nan v Fv).
      destruct (interp_from_ok fused M v MM PM Fv rest x0 y0 Hr' Ha' Hs L) as (A & B & C & N). split; [exact A|]. split.
      { destruct (Classical_Prop.classic (inside_table (map realp t) (B2R v))) as [h|h]; [exact h|]. apply IE in h. discriminate h. }
      split; [exact B|]. split.
      * intros x y Hi Ev. apply (N x y); [now apply Pin|exact Ev].
      * intros p q Hn Hv. assert (E : Ok (interp_from (B2R x0) (B2R y0) (map realp rest) (B2R v)) = Ok (line p q (B2R v))) by (eapply ir_between; eassumption). injection E as <-. exact C.
Qed.
