(** Lemmas for C104: one channel of a source. *)
From Coq Require Import Ascii String List Bool Arith ZArith Reals Lia Lra Permutation.
From Flocq Require Import Core.Core IEEE754.BinarySingleNaN.
From Verif Require Import Base Reactions Space Source SpecSource SourceProofs OpenMCProofs SpectraData Energy TextWrap SpecText TextProofs Format SpecFormat FormatProofs P_Text Mcnp SpecMcnp McnpProofs P_Mcnp
  FloatComp FloatCompProofs FloatCompAcc FloatSource SpecFloatSource FloatSourceProofs FloatSpaceProofs FloatReactivityProofs FloatMcnp SpecFloatMcnp FloatMcnpProofs FloatMcnpFileProofs FloatMcnpNumProofs FloatMcnpDeckProofs.
Import ListNotations.
Open Scope R_scope.
Local Notation bp := (bpow radix2).
Local Notation total := SpecSource.total.

Lemma moderate_bounded x : moderate x -> bounded x.
Proof. intro M. destruct (moderate_bounds x M) as (F & _ & B). now split. Qed.

(** ** Boundaries *)
Section Edges.
  Variable cm : f64.
  Hypothesis Hcm : factor_ok cm 100.
  Variable h : f64.
  Hypothesis Hh : moderate h.
  Hypothesis Ph : 0 < B2R h.
  Let half := half cm h.
  Let side := side cm h.
  (** u holds x in cm. *)
  Definition same (u x : f64) : Prop := fin u /\ B2R u = B2R (in_cm cm x).
  Lemma in_cm_same x : bounded x -> same (in_cm cm x) x.
  Proof. intros [F B]. split; [apply (in_cm_weak cm Hcm h Hh Ph x F B)|reflexivity]. Qed.
  Lemma half_bounds : fin half /\ 0 < B2R half <= bp 200.
  Proof. destruct (half_ok cm Hcm h Hh Ph) as (F & _ & B). destruct bp_107 as [B1 _]. split; [exact F|]. unfold half. lra. Qed.
  Lemma side_bounds : fin side /\ 0 < B2R side <= bp 200.
  Proof. destruct (side_ok cm Hcm h Hh Ph) as (F & _ & B). destruct bp_107 as [B1 _]. split; [exact F|]. unfold side. lra. Qed.
  Lemma cm_small x : bounded x -> Rabs (B2R (in_cm cm x)) <= bp 200.
  Proof. intros [F B]. destruct (in_cm_weak cm Hcm h Hh Ph x F B) as (_ & _ & _ & U). destruct (moderate_bounds h Hh) as (_ & _ & Bh). rewrite (Rabs_right (B2R h)) in Bh by lra. destruct bp_107. lra. Qed.
  Lemma lower_same u x : bounded x -> same u x -> plain64 (fsub u half) /\ B2R (fsub u half) = B2R (fsub (in_cm cm x) half) /\ Rabs (B2R (fsub u half)) <= bp 109.
  Proof.
    intros M [F E]. destruct half_bounds as [Fh Bh]. pose proof (cm_small x M) as S. destruct (lower_ok cm Hcm h Hh Ph x M) as (_ & V' & _ & L).
    destruct (fsub_plain u half F Fh) as [P V]; try lra; [rewrite E; exact S|]. split; [exact P|]. assert (Q : B2R (fsub u half) = B2R (fsub (in_cm cm x) half)) by (rewrite V, E; symmetry; exact V'). split; [exact Q|]. rewrite Q. exact L.
  Qed.
  Lemma last_same u x : bounded x -> same u x -> plain64 (fadd (fsub u half) side) /\ B2R (fadd (fsub u half) side) = B2R (fadd (fsub (in_cm cm x) half) side).
  Proof.
    intros M S. destruct (lower_same u x M S) as ([F _] & V & L). destruct side_bounds as [Fs Bs]. destruct (last_ok cm Hcm h Hh Ph x M) as (_ & V' & _). destruct (lower_ok cm Hcm h Hh Ph x M) as (_ & V0 & _ & _).
    assert (B9 : bp 109 <= bp 200) by (apply bpow_le; lia). destruct (fadd_plain (fsub u half) side F Fs) as [P W]; try lra. split; [exact P|]. rewrite W, V. symmetry. etransitivity; [exact V'|]. unfold half in *. rewrite V0. reflexivity.
  Qed.
  Lemma lower_fits us xs : Forall bounded xs -> Forall2 same us xs ->
    Forall plain64 (map (fun u => fsub u half) us) /\
    Forall2 fits (map (fun c => edge (B2R h) c (100 * (c - B2R h / 2))) (map B2R xs)) (map Num (map B2R (map (fun u => fsub u half) us))).
  Proof.
    intros M F. induction F as [|u x us xs S F IH]; [split; constructor|]. destruct (IH (Forall_inv_tail M)) as [P Q]. pose proof (Forall_inv M) as Mx. destruct (lower_same u x Mx S) as (P0 & V & _).
    destruct (lower_ok cm Hcm h Hh Ph x Mx) as (_ & _ & E & _). split; [constructor; assumption|]. constructor; [|exact Q]. apply fits_edge; [exact Ph|]. rewrite V.
    eapply Rle_trans; [exact E|]. unfold size. pose proof uu_pos. pose proof (Rabs_pos (B2R x)). assert (0 <= uu * (Rabs (B2R x) + B2R h)) by (apply Rmult_le_pos; lra). lra.
  Qed.
  Lemma last_Forall2 us xs : Forall2 same us xs -> xs <> [] -> same (last us f0) (last xs f0) /\ In (last xs f0) xs.
  Proof.
    induction 1 as [|u x us xs S F IH]; [congruence|]. intros _. destruct F as [|u' x' us xs S' F]; [split; [exact S|now left]|]. destruct (IH ltac:(discriminate)) as [A B]. split; [exact A|right; exact B].
  Qed.
  Lemma last_B2R (xs : list f64) : last (map B2R xs) 0 = B2R (last xs f0).
  Proof. induction xs as [|x [|y xs] IH]; [reflexivity|reflexivity|exact IH]. Qed.
  Lemma radial_fits us xs : xs <> [] -> Forall bounded xs -> Forall2 same us xs ->
    Forall plain64 (radial_bounds half side us) /\ Forall2 fits (edges64 (B2R h) (map B2R xs)) (map Num (map B2R (radial_bounds half side us))).
  Proof.
    intros N M F. destruct (lower_fits us xs M F) as [P Q]. destruct (last_Forall2 us xs F N) as [S I]. pose proof (proj1 (Forall_forall _ _) M _ I) as Ml. destruct (last_same _ _ Ml S) as [P1 V1]. destruct (last_ok cm Hcm h Hh Ph _ Ml) as (_ & _ & E).
    unfold radial_bounds, edges64. split; [apply Forall_app; split; [exact P|repeat constructor; apply P1]|]. rewrite !map_app. apply Forall2_app; [exact Q|]. rewrite last_B2R. constructor; [|constructor]. apply fits_edge; [exact Ph|]. rewrite V1. exact E.
  Qed.
  Lemma bounds_fits us xs : xs <> [] -> Forall bounded xs -> us = map (in_cm cm) xs ->
    Forall plain64 (bounds_of half us) /\ Forall2 fits (edges64 (B2R h) (map B2R xs)) (map Num (map B2R (bounds_of half us))).
  Proof.
    intros N M ->. assert (F : Forall2 same (map (in_cm cm) xs) xs). { clear N. induction M; constructor; [now apply in_cm_same|assumption]. }
    destruct (lower_fits _ xs M F) as [P Q]. destruct (last_Forall2 _ xs F N) as [S I]. pose proof (proj1 (Forall_forall _ _) M _ I) as Ml.
    assert (El : last (map (in_cm cm) xs) f0 = in_cm cm (last xs f0)). { clear - N. induction xs as [|x [|y xs] IH]; [congruence|reflexivity|]. apply IH. discriminate. }
    destruct (upper_ok cm Hcm h Hh Ph _ Ml) as (P1 & E). unfold bounds_of, edges64. rewrite El. split; [apply Forall_app; split; [exact P|repeat constructor; apply P1]|]. rewrite !map_app. apply Forall2_app; [exact Q|]. rewrite last_B2R. constructor; [|constructor]. apply fits_edge; [exact Ph|].
    eapply Rle_trans; [exact E|]. unfold size. pose proof uu_pos. pose proof (Rabs_pos (B2R (last xs f0))). assert (0 <= uu * (Rabs (B2R (last xs f0)) + B2R h)) by (apply Rmult_le_pos; lra). lra.
  Qed.

  (** ** The cards of the columns *)
  Variable npsum : list f64 -> f64.
  Hypothesis Hs : forall l, sums l (npsum l).
  Definition parts_of (ccs : list dcol) : list (list f64 * list f64) := map (fun c : dcol => (map (in_cm cm) (map fst (snd c)), map snd (snd c))) ccs.
  Definition dcol_ok (c : dcol) : Prop := snd c <> [] /\ bounded (fst c) /\ Forall bounded (map fst (snd c)) /\ Forall strength_ok (map snd (snd c)) /\ INR (length (snd c)) <= 10 ^ 8.
  Lemma dheights c : heights (col_as B2R c) = map B2R (map fst (snd c)).
  Proof. unfold heights, col_as. cbn [snd]. now rewrite !map_map. Qed.
  Lemma dstrengths c : strengths (col_as B2R c) = map B2R (map snd (snd c)).
  Proof. unfold strengths, col_as. cbn [snd]. now rewrite !map_map. Qed.
  Lemma strengths_plain l : Forall strength_ok l -> Forall plain64 l.
  Proof. intro F. eapply Forall_impl; [|exact F]. intros a [U _]. now apply unsigned_plain. Qed.
  Lemma nums_fit (l : list f64) : Forall2 fits (map (fun x => As (Num x)) (map B2R l)) (map Num (map B2R l)).
  Proof. induction l; constructor; [apply fits_as|assumption]. Qed.
  Lemma columns_fit ccs : Forall dcol_ok ccs -> forall n,
    Forall (fun p => Forall plain64 (bounds_of half (fst p)) /\ Forall plain64 (snd p)) (parts_of ccs) /\
    Forall2 (Forall2 fits) (column_cards64 (B2R h) n (map (col_as B2R) ccs)) (cards_of half n (parts_of ccs)).
  Proof.
    induction 1 as [|c ccs (N & M & Mz & Fs & L) _ IH]; intro n; [split; constructor|]. destruct (IH (S n)) as [P Q].
    assert (Nz : map fst (snd c) <> []) by (destruct (snd c); [congruence|discriminate]). destruct (bounds_fits (map (in_cm cm) (map fst (snd c))) (map fst (snd c)) Nz Mz eq_refl) as [P1 Q1].
    cbn [parts_of map cards_of column_cards64 fst snd]. rewrite dheights, dstrengths. split; [constructor; [split; [exact P1|now apply strengths_plain]|exact P]|].
    constructor; [|constructor; [|exact Q]].
    - cbn [app]. constructor; [apply fits_as|]. constructor; [apply fits_as|]. exact Q1.
    - cbn [app]. do 3 (constructor; [apply fits_as|]). apply nums_fit.
  Qed.
  Lemma sums_fit ccs : Forall dcol_ok ccs ->
    Forall plain64 (map (fun p => npsum (snd p)) (parts_of ccs)) /\
    Forall2 fits (map (fun c => amount (total (strengths c))) (map (col_as B2R) ccs)) (map Num (map B2R (map (fun p => npsum (snd p)) (parts_of ccs)))).
  Proof.
    induction 1 as [|c ccs (N & M & Mz & Fs & L) _ [P Q]]; [split; constructor|]. cbn [parts_of map fst snd]. rewrite dstrengths.
    destruct (sum_ok (map snd (snd c)) (npsum (map snd (snd c))) (Hs _) Fs) as [U C]; [rewrite map_length; exact L|destruct (snd c); [congruence|discriminate]|]. rewrite map_length in C.
    split; [constructor; [now apply unsigned_plain|exact P]|]. constructor; [|exact Q]. apply fits_amount. apply (close_rel (length (snd c))); [|exact C]. lra.
  Qed.
End Edges.

(** ** The energy cards *)
Section Energies.
  Variables (MeV : f64) (npsum : list f64 -> f64) (table : f64 -> res (list f64 * list f64)).
  Hypothesis Hm : factor_ok MeV (/ 1000).
  Hypothesis Hs : forall l, sums l (npsum l).
  Hypothesis Ht : table_ok table.
  Lemma MeV_unsigned : unsigned MeV.
  Proof. destruct (MeV_close MeV Hm) as ([F _] & _ & B). split; [exact F|]. apply pos_sign. pose proof (bp_pos (-11)). lra. Qed.
  Lemma energy_point x : unsigned x -> moderate x -> plain64 (fmul x MeV) /\ fits (amount (B2R x / 1000)) (Num (B2R (fmul x MeV))).
  Proof.
    intros U M. pose proof (unsigned_nn x U) as N. destruct (moderate_bounds x M) as (F & L & B). destruct N as [_ N]. rewrite (Rabs_right (B2R x)) in * by lra. destruct L as [Z|L].
    - destruct MeV_unsigned as [Fm Sm]. destruct U as [_ Sx]. destruct x as [s|s| |s m e Hb]; try discriminate F; cbn in Sx; subst s.
      + destruct MeV as [s|s| |s m e Hb]; try discriminate Fm; cbn in Sm; subst s; (split; [split; [reflexivity|reflexivity]|]); cbn [B2R fmul Bmult xorb]; apply fits_amount; rewrite Rminus_0_l, Rabs_Ropp; unfold Rdiv; rewrite Rmult_0_l, Rabs_R0; lra.
      + exfalso. cbn [B2R] in Z. pose proof (F2R_gt_0 radix2 (Float radix2 (Z.pos m) e) ltac:(cbn; lia)). cbn in Z. lra.
    - destruct (in_MeV MeV Hm x 0 (B2R x)) as [P C]; [split; [exact F|exact N]|apply close_refl; exact N|cbn; rewrite Rmult_0_l; lra|split; assumption|]. split; [exact P|]. apply fits_amount. apply (close_rel (1 + (0 + 9))); [cbn; lra|exact C].
  Qed.
  Lemma energy_points e : Forall (fun x => unsigned x /\ moderate x) e ->
    Forall plain64 (map (fun x => fmul x MeV) e) /\ Forall2 fits (map (fun x => amount (B2R x / 1000)) e) (map Num (map B2R (map (fun x => fmul x MeV) e))).
  Proof. induction 1 as [|x e [U M] _ [P Q]]; [split; constructor|]. destruct (energy_point x U M) as [P1 Q1]. split; [constructor; assumption|constructor; assumption]. Qed.
  Lemma card_fit y T code : Rabs (y - T / 1000) <= / 10 ^ 7 * (T / 1000) -> Forall2 fits (fusion_card64 code T) (fusion_card code (1000 * y)).
  Proof.
    intro E. unfold fusion_card64, fusion_card, words_. cbn [map app]. do 2 (constructor; [apply fits_as|]). constructor; [|constructor; [apply fits_as|constructor]].
    replace (1000 * y / 1000) with y by field. now apply fits_amount6.
  Qed.
  Lemma energy_fit reac st temps : is_neutronic reac = true -> Forall strength_ok st -> temps_ok temps -> length temps = length st -> INR (length st) <= 10 ^ 8 -> 0 < total (map B2R st) ->
    let W := weighted_mean (map B2R st) (map B2R temps) in
    exists T energy energy', mean_ion_temp64 npsum st temps = Ok T /\ energy_deck MeV table reac T energy' /\ expected_energy64 table reac W energy /\ Forall2 (Forall2 fits) energy energy'.
  Proof.
    intros Hn Fs Ft L Ln P W. destruct (mean_ok npsum Hs st temps Fs Ft L Ln P) as (T & E & FT & C & B). fold W in C, B. exists T.
    assert (In : INR (2 * length st + 2) <= 2 * 10 ^ 8 + 2) by (rewrite plus_INR, mult_INR; cbn [INR]; lra).
    assert (Ib : INR (2 * length st + 2) * uu <= / 2). { apply few. assert (3 * 10 ^ 8 <= bp 29) by (change (bp 29) with 536870912; lra). pose proof (bpow_le radix2 29 45 ltac:(lia)). lra. }
    assert (B' : bp (-100) <= W <= bp 100) by (split; [eapply Rle_trans; [|apply B]|eapply Rle_trans; [apply B|]]; apply bpow_le; lia).
    destruct (in_MeV MeV Hm T _ W FT C Ib B') as [PM CM].
    assert (RM : Rabs (B2R (fmul T MeV) - W / 1000) <= / 10 ^ 7 * (W / 1000)). { apply (close_rel (1 + (2 * length st + 2 + 9))); [|exact CM]. rewrite !plus_INR in *. change (INR 1) with 1. replace (INR 9) with 9 by (cbn [INR]; ring). lra. }
    destruct reac; try discriminate Hn.
    - do 2 eexists. split; [exact E|]. split; [constructor; exact PM|]. split; [constructor|]. constructor; [now apply card_fit|constructor].
    - do 2 eexists. split; [exact E|]. split; [constructor; exact PM|]. split; [constructor|]. constructor; [now apply card_fit|constructor].
    - assert (PW : 0 < W) by (pose proof (bp_pos (-50)); lra). pose proof (close_pos _ _ _ C PW) as PT.
      destruct (Ht T (proj1 FT) PT) as (e & p & Et & Ne & Np & Fe & Fp). destruct (energy_points e Fe) as [P1 Q1].
      do 2 eexists. split; [exact E|]. split; [apply (deck_TT _ _ T e p); try assumption; eapply Forall_impl; [|exact Fp]; apply unsigned_plain|]. split.
      + apply (energy64_TT _ W T e p); [|exact Et]. eapply Rle_trans; [refine (close_rel _ _ _ _ C); lra|]. lra.
      + constructor; [|constructor; [|constructor]]; cbn [words_ map app]; (do 3 (constructor; [apply fits_as|])); [exact Q1|]. rewrite <- (map_map B2R (fun x => As (Num x))). apply nums_fit.
  Qed.
End Energies.

(** ** Cells in cm *)
Lemma concat_in_length {A} (l : list (list A)) x : In x l -> (length x <= length (concat l))%nat.
Proof. induction l as [|a l IH]; intro H; [easy|]. cbn [concat]. rewrite app_length. destruct H as [-> |H]; [lia|]. apply IH in H. lia. Qed.
Lemma dcells_as (f : f64 -> R) r : forall z v, map (cell_as f) (combine (combine r z) v) = combine (combine (map f r) (map f z)) (map B2R v).
Proof. induction r as [|a r IH]; intros [|b z] [|c v]; try reflexivity. cbn [combine map]. unfold cell_as at 1. cbn [fst snd]. now rewrite IH. Qed.
Lemma dcells_parts (r : list f64) : forall (z v : list f64), length z = length r -> length v = length r ->
  map (fun c : dcell => fst (fst c)) (combine (combine r z) v) = r /\ map (fun c : dcell => snd (fst c)) (combine (combine r z) v) = z /\ map snd (combine (combine r z) v) = v.
Proof.
  induction r as [|a r IH]; intros [|b z] [|c v] L1 L2; try discriminate; [repeat split|]. destruct (IH z v) as (E1 & E2 & E3); [cbn in *; lia|cbn in *; lia|]. cbn [combine map fst snd]. rewrite E1, E2, E3. repeat split.
Qed.
Section Cells.
  Variable cm : f64.
  Hypothesis Hcm : factor_ok cm 100.
  Let f (x : f64) : R := B2R (in_cm cm x).
  Lemma same_radius a b : moderate a -> moderate b -> 0 <= B2R a -> (B2R a = B2R b \/ B2R a * (1 + / 2 ^ 40) < B2R b) -> (B2R a = B2R b <-> f a = f b) /\ f a <= f b /\ B2R a <= B2R b.
  Proof.
    intros Ma Mb P S. destruct S as [E|L].
    - pose proof (in_cm_eq cm Hcm a b Ma Mb E) as Q. unfold f. split; [tauto|lra].
    - pose proof (in_cm_neq cm Hcm a b Ma Mb P L) as Q. assert (0 <= B2R a * / 2 ^ 40) by (apply Rmult_le_pos; [exact P|left; apply Rinv_0_lt_compat, pow_lt; lra]). unfold f. split; [split; intro; lra|lra].
  Qed.
  Lemma chained_cells l : Forall (fun c : dcell => moderate (fst (fst c)) /\ 0 <= B2R (fst (fst c))) l -> separated (map (fun c : dcell => fst (fst c)) l) -> chained f l.
  Proof.
    induction l as [|a [|b l] IH]; intros F S; [exact I|exact I|]. destruct S as [S St]. split; [|apply IH; [exact (Forall_inv_tail F)|exact St]].
    destruct (Forall_inv F) as [Ma Pa]. destruct (Forall_inv (Forall_inv_tail F)) as [Mb Pb]. apply (same_radius _ _ Ma Mb Pa S).
  Qed.
  Lemma sorted_cm r : Forall (fun x => moderate x /\ 0 <= B2R x) r -> separated r -> by_radius (map B2R (map (in_cm cm) r)).
  Proof.
    induction r as [|a [|b r] IH]; intros F S; [exact I|exact I|]. destruct S as [S St]. split; [|apply IH; [exact (Forall_inv_tail F)|exact St]].
    destruct (Forall_inv F) as [Ma Pa]. destruct (Forall_inv (Forall_inv_tail F)) as [Mb Pb]. apply (same_radius _ _ Ma Mb Pa S).
  Qed.
End Cells.

(** ** The file of a channel *)
Section Channel.
  Variables (cm MeV : f64) (npsum : list f64 -> f64) (table : f64 -> res (list f64 * list f64)).
  Hypothesis Hcm : factor_ok cm 100.
  Hypothesis Hm : factor_ok MeV (/ 1000).
  Hypothesis Hs : forall l, sums l (npsum l).
  Hypothesis Ht : table_ok table.
  Lemma unique_same r ccs : map B2R (np_unique64 (map (in_cm cm) r)) = map (fun c : dcol => B2R (in_cm cm (fst c))) ccs -> Forall fin (map (in_cm cm) r) ->
    Forall2 (same cm) (np_unique64 (map (in_cm cm) r)) (map fst ccs).
  Proof.
    intros E F. destruct (unique_R _ F) as [_ Fu]. revert ccs E Fu. generalize (np_unique64 (map (in_cm cm) r)) as u. induction u as [|a u IH]; intros [|c ccs] E Fu; try discriminate; [constructor|]. cbn [map] in *. assert (E1 : B2R a = B2R (in_cm cm (fst c))) by congruence. assert (E2 : map B2R u = map (fun c : dcol => B2R (in_cm cm (fst c))) ccs) by congruence.
    constructor; [split; [exact (Forall_inv Fu)|exact E1]|apply IH; [exact E2|exact (Forall_inv_tail Fu)]].
  Qed.
  Lemma channel_written64 cit stub r z h temps reac v : proper_citation cit -> grid_ok r z h -> temps_ok temps -> length temps = length r -> is_neutronic reac = true -> channel_ok r (reac, v) ->
    exists t, file_content64 MeV npsum table cit (map (in_cm cm) r) (map (in_cm cm) z) (in_cm cm h) temps reac v = Ok t /\
      holds_channel64 table stub r z h temps (reac, v) (name_of stub reac, t).
  Proof.
    intros Pc (N & Lz & Ln & Fr & Sr & Fz & Mh & Ph) Ft Lt Hn (Lv & Fv & Pv). cbn [fst snd] in *.
    assert (Ln' : INR (length v) <= 10 ^ 8) by (rewrite Lv; exact Ln).
    destruct (energy_fit MeV npsum table Hm Hs Ht reac v temps Hn Fv Ft ltac:(lia) Ln' Pv) as (T & energy & energy' & ET & ED & EE & EF).
    set (dl := combine (combine r z) v). destruct (dcells_parts r z v Lz Lv) as (D1 & D2 & D3). fold dl in D1, D2, D3.
    assert (Frd : Forall (fun c : dcell => moderate (fst (fst c)) /\ 0 <= B2R (fst (fst c))) dl) by (rewrite <- D1 in Fr; exact (proj1 (Forall_map _ _ _) Fr)).
    assert (Fm : Forall moderate r) by (eapply Forall_impl; [|exact Fr]; now intros a [H _]). rewrite two_bpow in Fz.
    assert (Ch : chained (fun x => B2R (in_cm cm x)) dl) by (apply (chained_cells cm Hcm); [exact Frd|rewrite D1; exact Sr]).
    destruct (dcolumns _ dl Ch) as (ccs & C1 & C2 & C3 & C4 & C5 & _). rewrite D1 in C5. rewrite D2 in C3. rewrite D3 in C4.
    assert (Frc : Forall fin (map (in_cm cm) r)) by (apply Forall_map; eapply Forall_impl; [|exact Fm]; intros a M; apply (in_cm_ok cm Hcm a M)).
    assert (By : by_radius (map B2R (map (in_cm cm) r))) by (now apply sorted_cm).
    assert (Q1 : combine (combine (map B2R r) (map B2R z)) (map B2R v) = map (cell_as B2R) dl) by (symmetry; apply dcells_as).
    assert (Q2 : combine (combine (map B2R (map (in_cm cm) r)) (map B2R (map (in_cm cm) z))) (map B2R v) = map (cell_as (fun x => B2R (in_cm cm x))) dl) by (unfold dl; rewrite dcells_as, !map_map; reflexivity).
    assert (Ok_cols : Forall dcol_ok ccs).
    { rewrite Forall_forall. intros c Hc. rewrite Forall_forall in C5, Fm. destruct (C5 c Hc) as [I Nc]. split; [exact Nc|]. split; [apply moderate_bounded; now apply Fm|].
      split; [|split].
      - apply Forall_forall. intros x Hx. rewrite Forall_forall in Fz. apply Fz. rewrite <- C3. apply in_concat. exists (map fst (snd c)). split; [|exact Hx]. apply in_map_iff. now exists c.
      - apply Forall_forall. intros x Hx. rewrite Forall_forall in Fv. apply Fv. rewrite <- C4. apply in_concat. exists (map snd (snd c)). split; [|exact Hx]. apply in_map_iff. now exists c.
      - eapply Rle_trans; [|exact Ln']. apply le_INR. rewrite <- C4. rewrite <- (map_length snd (snd c)). apply concat_in_length. apply in_map_iff. now exists c. }
    assert (EU : map B2R (np_unique64 (map (in_cm cm) r)) = map (fun c : dcol => B2R (in_cm cm (fst c))) ccs).
    { rewrite (proj1 (unique_R _ Frc)). assert (Lz' : length (map B2R (map (in_cm cm) z)) = length (map B2R (map (in_cm cm) r))) by (rewrite !map_length; exact Lz). assert (Lv' : length (map B2R v) = length (map B2R (map (in_cm cm) r))) by (rewrite !map_length; exact Lv).
      destruct (cells_parts _ _ _ Lz' Lv') as (Er & _). rewrite <- Er in By |- *. rewrite (proj2 (columns_radii _ By)), Q2, C2, map_map. reflexivity. }
    pose proof (unique_same r ccs EU Frc) as SU.
    assert (Nx : map fst ccs <> []). { intro E. apply map_eq_nil in E. subst ccs. cbn in C4. rewrite <- C4 in Lv. destruct r; [congruence|discriminate Lv]. }
    assert (Mx : Forall bounded (map fst ccs)) by (apply Forall_map; eapply Forall_impl; [|exact Ok_cols]; intros c H; apply H).
    destruct (radial_fits cm Hcm h Mh Ph _ _ Nx Mx SU) as [PR QR]. destruct (sums_fit cm npsum Hs ccs Ok_cols) as [PS QS]. destruct (columns_fit cm Hcm h Mh Ph ccs Ok_cols 5) as [PP QP].
    assert (Nv : v <> []) by (intros ->; destruct r; [congruence|discriminate Lv]).
    destruct (sum_ok v (pysum64 v) (pysum64_sums v) Fv Ln' Nv) as [UT CT].
    destruct (file_reads64 MeV npsum table cit (map (in_cm cm) r) (map (in_cm cm) z) (in_cm cm h) temps reac v T energy' (map (col_as (fun x => B2R (in_cm cm x))) ccs) (parts_of cm ccs)) as (t & E & Rd & Tot); try assumption.
    - destruct r; [congruence|discriminate].
    - rewrite !map_length. exact Lz.
    - rewrite map_length. exact Lv.
    - rewrite Q2. symmetry. exact C2.
    - unfold parts_of. rewrite map_map. rewrite <- C3, concat_map, map_map. reflexivity.
    - unfold parts_of. rewrite map_map. exact C4.
    - unfold parts_of. rewrite !map_map. apply map_ext. intro c. cbn [fst snd col_as]. now rewrite !map_length.
    - unfold parts_of. rewrite !map_map. apply map_ext. intro c. cbn [fst snd col_as]. now rewrite !map_length.
    - now apply unsigned_plain.
    - rewrite map_length. assert (L : (Z.of_nat (length r) <= 10 ^ 8)%Z). { apply le_IZR. rewrite <- INR_IZR_INZ. replace (IZR (10 ^ 8)) with (10 ^ 8) by (rewrite (pow_IZR 10 8); reflexivity). exact Ln. } change (10 ^ 70)%Z with (10 ^ 8 * 10 ^ 62)%Z. nia.
    - exists t. split; [exact E|]. split; [reflexivity|]. split.
      + exists energy. split; [exact EE|]. cbn [snd]. rewrite (reads_deck _ _ Rd), Q1, C1. apply fits_deck. unfold expected_deck64, deck_of.
        constructor; [apply fits_as_all|]. apply Forall2_app; [exact EF|]. unfold radial_cards64. cbn [app]. constructor; [|constructor; [|constructor; [|exact QP]]].
        * unfold words_. cbn [map app]. do 2 (constructor; [apply fits_as|]). replace (map fst (map (col_as B2R) ccs)) with (map B2R (map fst ccs)) by (rewrite !map_map; reflexivity). exact QR.
        * unfold words_. cbn [map app]. do 3 (constructor; [apply fits_as|]). exact QS.
        * unfold words_. cbn [map app]. do 2 (constructor; [apply fits_as|]). replace (length (np_unique64 (map (in_cm cm) r))) with (length (map (col_as B2R) ccs)).
          2: { transitivity (length (map B2R (np_unique64 (map (in_cm cm) r)))); [rewrite EU, !map_length; reflexivity|apply map_length]. }
          rewrite <- map_map with (f := Nat) (g := As). apply fits_as_all.
      + eexists. split; [exact Tot|]. cbn [snd]. assert (Fa : fits (amount6 (total (map B2R v))) (Num6 (B2R (pysum64 v)))) by (apply fits_amount6; apply (close_rel (length v)); [lra|exact CT]). apply Fa. cbn [reads_item]. apply fmt_e_shows.
  Qed.
End Channel.
