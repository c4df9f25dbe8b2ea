(** C105: what MCNP samples from SDEF files computed with rounding. *)
From Coq Require Import Ascii String List Bool Arith ZArith Lia Reals Lra.
From Flocq Require Import Core.Core IEEE754.BinarySingleNaN.
From Verif Require Import Base Reactions Space Source SpecSource SourceProofs OpenMCProofs SpectraData Energy TextWrap SpecText Format SpecFormat FormatProofs P_Energy Mcnp SpecMcnp McnpProofs SpecSdef SdefProofs P_Mcnp
  FloatComp FloatCompProofs FloatCompAcc FloatSource SpecFloatSource FloatSourceProofs P_FloatSource FloatReactivityProofs FloatMcnp SpecFloatMcnp FloatMcnpProofs FloatMcnpFileProofs FloatMcnpNumProofs FloatMcnpDeckProofs FloatMcnpChannelProofs P_FloatMcnp SpecFloatSdef FloatSdefProofs.
Import ListNotations.
Open Scope R_scope.
Local Notation total := SpecSource.total.

Definition cells_of (r z : list f64) (v : list f64) : list cell := combine (combine (map B2R r) (map B2R z)) (map B2R v).

Lemma columns_in r z v c : In c (columns (combine (combine r z) v)) -> In (fst c) r /\ forall x, In x (heights c) -> In x z.
Proof.
  assert (G : forall l : list cell, (forall a b s, In (a, b, s) l -> In a r /\ In b z) -> forall c, In c (columns l) -> In (fst c) r /\ forall x, In x (heights c) -> In x z).
  { clear. induction l as [|[[a b] s] l IH]; intros H c Hc; [destruct Hc|]. rewrite columns_step in Hc. destruct (H a b s (or_introl eq_refl)) as [Ha Hb].
    assert (IH' : forall c, In c (columns l) -> In (fst c) r /\ forall x, In x (heights c) -> In x z) by (apply IH; intros; eapply H; right; eassumption).
    destruct (columns l) as [|[r' d] rest].
    - destruct Hc as [<- |[]]. split; [exact Ha|]. intros x [<- |[]]. exact Hb.
    - destruct (Req_EM_T a r') as [<- |N].
      + destruct Hc as [<- |Hc]; [|apply IH'; now right]. split; [exact Ha|]. intros x [<- |Hx]; [exact Hb|]. now apply (IH' (a, d) (or_introl eq_refl)).
      + destruct Hc as [<- |Hc]; [|now apply IH']. split; [exact Ha|]. intros x [<- |[]]. exact Hb. }
  apply G. intros a b s I. apply in_combine_l in I. split; [eapply in_combine_l; exact I|eapply in_combine_r; exact I].
Qed.
Lemma combine_nonempty (r z v : list R) : r <> [] -> length z = length r -> length v = length r -> columns (combine (combine r z) v) <> [].
Proof. destruct r as [|a r]; [congruence|]. destruct z as [|b z]; [discriminate|]. destruct v as [|s v]; [discriminate|]. intros _ _ _. cbn [combine]. rewrite columns_step. destruct (columns (combine (combine r z) v)) as [|[r' c] rest]; [discriminate|]. destruct (Req_EM_T a r'); discriminate. Qed.

Lemma file_regions table stub r z h temps reac v file D : length z = length r -> length v = length r -> r <> [] -> Forall strength_ok v -> within_reach D r z h ->
  holds_channel64 table stub r z h temps (reac, v) file ->
  exists em, emission (read_deck (snd file)) = Some em /\
    Forall2 (near_region (D / 10 ^ 12)) em (regions (B2R h) (total (map B2R v)) (columns (cells_of r z v))).
Proof.
  intros Lz Lv Nr Fs [Wr Wz] (_ & (energy & E & F) & _). cbn [fst snd] in *. fold (cells_of r z v) in F.
  destruct (emission_of64 table reac _ energy (B2R h) _ _ E F) as (b & p & hs & Ee & Fb & Fp & Fh & _). exists (concat (map (fun rc => with_radius (fst rc) (snd rc)) (combine (combine (bins b) (map (fun x => x / total p) p)) hs))). split; [exact Ee|].
  assert (Nn : Forall (fun x => 0 <= x) (map B2R v)). { apply Forall_map. eapply Forall_impl; [|exact Fs]. intros a [U _]. now apply unsigned_nn. }
  destruct (channel_cells (map B2R r) (map B2R z) (map B2R v) ltac:(now rewrite !map_length) ltac:(now rewrite !map_length)) as [T N]. fold (cells_of r z v) in T, N. rewrite <- T.
  assert (In' : forall c, In c (columns (cells_of r z v)) -> Rabs (fst c) + B2R h <= D /\ Forall (fun x => Rabs x + B2R h <= D) (heights c)).
  { intros c Hc. apply columns_in in Hc. destruct Hc as [Hr Hz]. rewrite Forall_forall in Wr, Wz. split; [apply in_map_iff in Hr; destruct Hr as (x & <- & Hx); now apply Wr|]. apply Forall_forall. intros y Hy. apply Hz in Hy. apply in_map_iff in Hy. destruct Hy as (x & <- & Hx). now apply Wz. }
  apply regions_near; try assumption.
  - now apply N.
  - apply columns_nonempty.
  - apply Forall_forall. intros c Hc. now apply In'.
  - apply Forall_forall. intros c Hc. now apply In'.
  - apply combine_nonempty; [now destruct r|now rewrite !map_length|now rewrite !map_length].
Qed.

(** Writing succeeds, and from the file of each neutronic channel MCNP samples the bins of its columns and cells, with the cells' shares
    of the source strength as probabilities. *)
Theorem C105_sampled_regions : forall cm MeV npsum table cit stub r z h temps st D,
  factor_ok cm 100 -> factor_ok MeV (/ 1000) -> (forall l, sums l (npsum l)) -> table_ok table ->
  proper_citation cit -> grid_ok r z h -> temps_ok temps -> length temps = length r ->
  (forall channel, In channel st -> neutronic (fst channel) = true -> channel_ok r channel) -> within_reach D r z h ->
  exists files, write_mcnp_sdef_source64 cm MeV npsum table cit stub r z h temps st = (files, Ok tt) /\
    Forall2 (fun channel file => exists em, emission (read_deck (snd file)) = Some em /\
        Forall2 (near_region (D / 10 ^ 12)) em (regions (B2R h) (total (map B2R (snd channel))) (columns (cells_of r z (snd channel)))))
      (filter (fun channel => neutronic (fst channel)) st) files.
Proof.
  intros cm MeV npsum table cit stub r z h temps st D Hc Hm Hs Ht Pc G Ft Lt W WR. destruct (C104_file_contents cm MeV npsum table cit stub r z h temps st) as (files & E & F); try assumption. exists files. split; [exact E|].
  assert (W' : forall channel, In channel (filter (fun channel => neutronic (fst channel)) st) -> channel_ok r channel) by (intros c Hi; apply filter_In in Hi; now apply W).
  clear - F W' G WR. induction F as [|[reac v] file cs files H F IH]; constructor; [|apply IH; intros; apply W'; now right].
  destruct (W' _ (or_introl eq_refl)) as (Lv & Fs & _). cbn [snd] in *. apply (file_regions table stub r z h temps reac v file D); try assumption; apply G.
Qed.
Print Assumptions C105_sampled_regions.

(** If the columns, and the cells of each column, are a side apart up to [eta], these are the cells themselves. *)
Definition wider (tol tol' : R) (e x : R * R) : Prop := forall a, near_bin tol a e -> near_bin tol' a x.
Definition cell_bin (h c : R) : R * R := (100 * (c - h / 2), 100 * (c + h / 2)).
Lemma bins_nearly tol eta h centres : centres <> [] -> 0 <= eta -> nearly_contiguous eta h centres ->
  Forall2 (wider tol (tol + 101 * eta)) (bins (boundaries h centres)) (map (cell_bin h) centres).
Proof.
  intros N Eta C. unfold boundaries. induction centres as [|a l IH]; [congruence|]. destruct l as [|b l].
  - cbn [map app last bins]. constructor; [|constructor]. intros p [H1 H2]. unfold cell_bin. split; cbn [fst snd] in *; lra.
  - destruct C as [Cab C]. cbn [map app] in *. change (last (a :: b :: l) 0) with (last (b :: l) 0).
    match goal with |- Forall2 _ (bins (?x :: ?y :: ?t)) _ => change (bins (x :: y :: t)) with ((x, y) :: bins (y :: t)) end.
    constructor; [|apply IH; [discriminate|exact C]]. intros q [H1 H2]. unfold cell_bin. cbn [fst snd] in *. split; cbn [fst snd]; [lra|].
    assert (D : Rabs (100 * (b - h / 2) - 100 * (a + h / 2)) <= 100 * eta). { replace (100 * (b - h / 2) - 100 * (a + h / 2)) with (100 * (b - a - h)) by field. rewrite Rabs_mult, (Rabs_pos_eq 100) by lra. lra. }
    pose proof (Rabs_triang (snd q - 100 * (b - h / 2)) (100 * (b - h / 2) - 100 * (a + h / 2))) as T. replace (snd q - 100 * (b - h / 2) + (100 * (b - h / 2) - 100 * (a + h / 2))) with (snd q - 100 * (a + h / 2)) in T by ring.
    pose proof (Rabs_triang (100 * (a + h / 2)) (100 * (b - h / 2) - 100 * (a + h / 2))) as T2. replace (100 * (a + h / 2) + (100 * (b - h / 2) - 100 * (a + h / 2))) with (100 * (b - h / 2)) in T2 by ring. lra.
Qed.
Definition wider_region (tol tol' : R) (e x : region) : Prop := forall a, near_region tol a e -> near_region tol' a x.
Definition ring_cells (h w : R) (c : col) : list region := map (fun zs => (cell_bin h (fst c), cell_bin h (fst zs), snd zs / w)) (snd c).
Lemma regions_nearly tol eta h w cs : 0 <= eta -> cs <> [] -> Forall (fun c : col => snd c <> []) cs -> nearly_contiguous eta h (map fst cs) -> Forall (fun c => nearly_contiguous eta h (heights c)) cs ->
  Forall2 (wider_region tol (tol + 101 * eta)) (regions h w cs) (concat (map (ring_cells h w) cs)).
Proof.
  intros Eta N Ne C Cc. unfold regions. apply Forall2_concat. assert (B : Forall2 (wider tol (tol + 101 * eta)) (bins (boundaries h (map fst cs))) (map (cell_bin h) (map fst cs))) by (apply bins_nearly; [now destruct cs|exact Eta|exact C]).
  clear N C. revert B. generalize (bins (boundaries h (map fst cs))) as rb. induction cs as [|c cs IH]; intros rb B; inversion B as [|e ? rb' ? He Be]; subst; [constructor|].
  cbn [combine map]. constructor; [|apply IH; [exact (Forall_inv_tail Ne)|exact (Forall_inv_tail Cc)|exact Be]]. cbn [fst snd]. unfold ring_cells.
  assert (Z : Forall2 (wider tol (tol + 101 * eta)) (bins (boundaries h (heights c))) (map (cell_bin h) (heights c))).
  { apply bins_nearly; [|exact Eta|exact (Forall_inv Cc)]. pose proof (Forall_inv Ne) as Hn. cbv beta in Hn. unfold heights. now destruct (snd c). }
  unfold heights, strengths in *. clear - He Z. revert Z. generalize (bins (boundaries h (map fst (snd c)))) as zb. generalize (snd c) as l. induction l as [|[x s] l IH]; intros zb Z; inversion Z as [|ez ? zb' ? Hz Bz]; subst; [constructor|].
  cbn [map combine fst snd]. constructor; [|apply IH; exact Bz]. intros a (A1 & A2 & A3). cbn [fst snd] in *. split; [now apply He|]. split; [now apply Hz|exact A3].
Qed.
Lemma Forall2_wider tol tol' em es xs : Forall2 (near_region tol) em es -> Forall2 (wider_region tol tol') es xs -> Forall2 (near_region tol') em xs.
Proof. intro F. revert xs. induction F as [|a e em es H F IH]; intros xs G; inversion G; subst; constructor; [auto|now apply IH]. Qed.

Lemma columns_same r : forall z v v' : list R, length z = length r -> length v = length r -> length v' = length r ->
  map fst (columns (combine (combine r z) v)) = map fst (columns (combine (combine r z) v')) /\ map heights (columns (combine (combine r z) v)) = map heights (columns (combine (combine r z) v')).
Proof.
  induction r as [|a r IH]; intros [|b z] [|s v] [|s' v'] Lz Lv Lv'; try discriminate; [split; reflexivity|]. cbn [combine]. rewrite !columns_step.
  destruct (IH z v v' ltac:(cbn in Lz; lia) ltac:(cbn in Lv; lia) ltac:(cbn in Lv'; lia)) as [E1 E2].
  destruct (columns (combine (combine r z) v)) as [|[x c] cs]; destruct (columns (combine (combine r z) v')) as [|[x' c'] cs']; try discriminate; [split; reflexivity|].
  cbn [map fst] in E1. injection E1 as <- E1. cbn [map] in E2. injection E2 as E2 E3. unfold heights in E2. cbn [snd] in E2.
  destruct (Req_EM_T a x) as [->|]; cbn [map fst]; unfold heights in *; cbn [snd map fst]; rewrite ?E1, ?E2, ?E3; split; reflexivity.
Qed.
Theorem C105_sampled_regions_are_cells : forall cm MeV npsum table cit stub r z h temps st D eta,
  factor_ok cm 100 -> factor_ok MeV (/ 1000) -> (forall l, sums l (npsum l)) -> table_ok table ->
  proper_citation cit -> grid_ok r z h -> temps_ok temps -> length temps = length r ->
  (forall channel, In channel st -> neutronic (fst channel) = true -> channel_ok r channel) -> within_reach D r z h ->
  0 <= eta -> (let grid := columns (cells_of r z (map (fun _ => f0) r)) in nearly_contiguous eta (B2R h) (map fst grid) /\ Forall (fun c => nearly_contiguous eta (B2R h) (heights c)) grid) ->
  exists files, write_mcnp_sdef_source64 cm MeV npsum table cit stub r z h temps st = (files, Ok tt) /\
    Forall2 (fun channel file => exists em, emission (read_deck (snd file)) = Some em /\
        Forall2 (near_region (D / 10 ^ 12 + 101 * eta)) em (map (ring_region (B2R h) (total (map B2R (snd channel)))) (cells_of r z (snd channel))))
      (filter (fun channel => neutronic (fst channel)) st) files.
Proof.
  intros cm MeV npsum table cit stub r z h temps st D eta Hc Hm Hs Ht Pc G Ft Lt W WR Eta [C1 C2].
  destruct (C105_sampled_regions cm MeV npsum table cit stub r z h temps st D) as (files & E & F); try assumption. exists files. split; [exact E|].
  assert (W' : forall channel, In channel (filter (fun channel => neutronic (fst channel)) st) -> channel_ok r channel) by (intros c Hi; apply filter_In in Hi; now apply W).
  clear - F W' G Eta C1 C2. induction F as [|[reac v] file cs files H F IH]; constructor; [|apply IH; intros; apply W'; now right].
  destruct (W' _ (or_introl eq_refl)) as (Lv & _). destruct H as (em & Ee & Fe). cbn [snd] in *. exists em. split; [exact Ee|].
  assert (Lz : length z = length r) by apply G.
  assert (Same : map fst (columns (cells_of r z v)) = map fst (columns (cells_of r z (map (fun _ => f0) r))) /\ map heights (columns (cells_of r z v)) = map heights (columns (cells_of r z (map (fun _ => f0) r)))).
  { apply columns_same; now rewrite !map_length. }
  destruct Same as [S1 S2]. rewrite <- S1 in C1. assert (C2' : Forall (nearly_contiguous eta (B2R h)) (map heights (columns (cells_of r z v)))) by (rewrite S2; now apply Forall_map). rewrite Forall_map in C2'.
  eapply Forall2_wider; [exact Fe|]. replace (map (ring_region (B2R h) (total (map B2R v))) (cells_of r z v)) with (concat (map (ring_cells (B2R h) (total (map B2R v))) (columns (cells_of r z v)))).
  { apply regions_nearly; try assumption; [|apply columns_nonempty]. apply combine_nonempty; [|now rewrite !map_length|now rewrite !map_length]. destruct G as [Nr _]. now destruct r. }
  pose proof (columns_flat (fun r zs => (cell_bin (B2R h) r, cell_bin (B2R h) (fst zs), snd zs / total (map B2R v))) (cells_of r z v)) as Q. unfold ring_cells. unfold region, col in *. transitivity (map (fun c : R * R * R => let '(r, z, s) := c in (cell_bin (B2R h) r, cell_bin (B2R h) (fst (z, s)), snd (z, s) / total (map B2R v))) (cells_of r z v)); [exact Q|]. apply map_ext. intros [[a b] s]. reflexivity.
Qed.
Print Assumptions C105_sampled_regions_are_cells.

(** The numbers on the cards: column totals and cell strengths; the cells of all columns together are the channel. *)
Theorem C105_card_probabilities : forall cm MeV npsum table cit stub r z h temps st,
  factor_ok cm 100 -> factor_ok MeV (/ 1000) -> (forall l, sums l (npsum l)) -> table_ok table ->
  proper_citation cit -> grid_ok r z h -> temps_ok temps -> length temps = length r ->
  (forall channel, In channel st -> neutronic (fst channel) = true -> channel_ok r channel) ->
  exists files, write_mcnp_sdef_source64 cm MeV npsum table cit stub r z h temps st = (files, Ok tt) /\
    Forall2 (fun channel file =>
        let deck := read_deck (snd file) in let cs := columns (cells_of r z (snd channel)) in
        (exists p, entry_numbers "SP" 3 "D" deck = Some (0 :: p) /\ Forall2 (SpecSdef.close (6 / 10 ^ 6)) p (map (fun c => total (strengths c)) cs)) /\
        (forall i c, nth_error cs i = Some c -> exists p, entry_numbers "SP" (INR (5 + i)) "D" deck = Some (0 :: p) /\ Forall2 (SpecSdef.close (5 / 10 ^ 6)) p (strengths c)) /\
        concat (map strengths cs) = map B2R (snd channel))
      (filter (fun channel => neutronic (fst channel)) st) files.
Proof.
  intros cm MeV npsum table cit stub r z h temps st Hc Hm Hs Ht Pc G Ft Lt W. destruct (C104_file_contents cm MeV npsum table cit stub r z h temps st) as (files & E & F); try assumption. exists files. split; [exact E|].
  assert (W' : forall channel, In channel (filter (fun channel => neutronic (fst channel)) st) -> channel_ok r channel) by (intros c Hi; apply filter_In in Hi; now apply W).
  assert (Lz : length z = length r) by apply G. clear - F W' Lz. induction F as [|[reac v] file cs files H F IH]; constructor; [|apply IH; intros; apply W'; now right].
  destruct (W' _ (or_introl eq_refl)) as (Lv & Fs & _). cbn [snd] in *. destruct H as (_ & (energy & E & Fd) & _). cbn [fst snd] in *. fold (cells_of r z v) in Fd.
  destruct (emission_of64 table reac _ energy (B2R h) _ _ E Fd) as (b & p & hs & _ & _ & Fp & _ & _ & Ep & _ & Ce).
  assert (Nn : Forall (fun x => 0 <= x) (map B2R v)). { apply Forall_map. eapply Forall_impl; [|exact Fs]. intros a [U _]. now apply unsigned_nn. }
  destruct (channel_cells (map B2R r) (map B2R z) (map B2R v) ltac:(now rewrite !map_length) ltac:(now rewrite !map_length)) as [_ N]. fold (cells_of r z v) in N. specialize (N Nn).
  split; [|split].
  - exists p. split; [exact Ep|]. clear - Fp N. revert p Fp. induction N as [|c cs Hc N IH]; intros p Fp; inversion Fp as [|v0 ? p' ? Hv Fp']; subst; constructor; [|now apply IH].
    assert (P : 0 <= total (strengths c)) by (clear - Hc; induction Hc; cbn [SpecSource.total]; lra). change (Rabs (v0 - total (strengths c)) <= 6 / 10 ^ 6 * Rabs (total (strengths c))). rewrite (Rabs_pos_eq (total (strengths c))) by exact P. exact Hv.
  - intros i c Hc. destruct (Ce i c Hc) as (_ & q & _ & Eq & _ & Fq). exists q. split; [exact Eq|]. apply shown_strengths in Fq. clear - Fq. induction Fq; constructor; [now apply shown_close|assumption].
  - rewrite columns_strengths. apply (cells_parts (map B2R r) (map B2R z) (map B2R v)); now rewrite !map_length.
Qed.
Print Assumptions C105_card_probabilities.

(** The cells of the example of C104 are a side apart. *)
Example C105_hypotheses : let n := f64_of_Z in let r := [n 1%Z; n 1%Z; n 2%Z] in let z := [f0; n 1%Z; f0] in
  within_reach 3 r z (n 1%Z) /\ (let grid := columns (cells_of r z (map (fun _ => f0) r)) in nearly_contiguous 0 (B2R (n 1%Z)) (map fst grid) /\ Forall (fun c => nearly_contiguous 0 (B2R (n 1%Z)) (heights c)) grid).
Proof.
  intros n r z. destruct (ex_num 1) as (_ & V1 & _); [lia|]. destruct (ex_num 2) as (_ & V2 & _); [lia|]. fold n in V1, V2. assert (V0 : B2R f0 = 0) by reflexivity.
  split.
  - split; (constructor; [|constructor; [|constructor; [|constructor]]]); rewrite ?V0, ?V1, ?V2, ?Rabs_R0, ?(Rabs_pos_eq 1), ?(Rabs_pos_eq 2) by lra; lra.
  - unfold cells_of, r, z. cbn [map combine]. rewrite V0, V1, V2. rewrite !columns_step. cbn [columns]. destruct (Req_EM_T 1 2); [lra|]. destruct (Req_EM_T 1 1); [|congruence].
    cbn [map fst snd]. unfold heights. cbn [map fst snd nearly_contiguous]. replace (2 - 1 - 1) with 0 by ring. replace (1 - 0 - 1) with 0 by ring. rewrite Rabs_R0.
    split; [split; [lra|exact I]|]. constructor; [cbn; replace (1 - 0 - 1) with 0 by ring; rewrite Rabs_R0; split; [lra|exact I]|]. constructor; [exact I|constructor].
Qed.
