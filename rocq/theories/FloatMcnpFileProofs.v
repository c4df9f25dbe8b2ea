(** Lemmas for C104: the file of one reaction. *)
From Coq Require Import Ascii String List Bool Arith ZArith Reals Lia Lra Permutation.
From Flocq Require Import Core.Core IEEE754.BinarySingleNaN.
From Verif Require Import Base Reactions Space Source SpecSource OpenMCProofs SpectraData Energy TextWrap SpecText TextProofs Format SpecFormat FormatProofs P_Text Mcnp SpecMcnp McnpProofs P_Mcnp
  FloatComp FloatCompProofs FloatCompAcc FloatSource SpecFloatSource FloatSourceProofs FloatMcnp SpecFloatMcnp FloatMcnpProofs.
Import ListNotations.
Open Scope R_scope.

Section File.
  Variables (MeV : f64) (npsum : list f64 -> f64) (table : f64 -> res (list f64 * list f64)).

  (** ** The header *)
  Ltac comment := apply reads_comment_then; [now apply no_nl_txt|reflexivity|].
  Lemma header_reads64 cit reac r_data temps T cards ew : proper_citation cit -> mean_ion_temp64 npsum r_data temps = Ok T -> energy_cards64 MeV table reac T = Ok cards -> reads cards ew ->
    plain64 (pysum64 r_data) ->
    exists t, sdef_header64 MeV npsum table cit reac r_data temps = Ok t /\ reads t ([map item_word sdef_card] ++ ew) /\
      forall rest, In (txt "C Total source neutrons: " ++ fmt_e 6 (B2R (pysum64 r_data)) ++ txt " n/s") (lines (t ++ rest)).
  Proof.
    intros (Na & Hr & Ha) ET EC R P. unfold sdef_header64. rewrite ET. cbn [bind]. rewrite EC. cbn [bind fst snd]. rewrite (show64_5e_plain _ P). eexists. split; [reflexivity|]. split.
    - do 2 comment. apply reads_comment_then; [apply no_nl_app; [now apply no_nl_txt|exact Hr]|reflexivity|]. do 4 comment.
      change ([map item_word sdef_card] ++ ew) with ([] ++ ([map item_word sdef_card] ++ ew)). apply reads_app; [now apply reads_authors|].
      do 10 comment.
      apply reads_comment_then; [apply no_nl_app; apply no_nl_txt; [reflexivity|destruct reac; reflexivity]|reflexivity|].
      apply reads_comment_then; [apply no_nl_app; [now apply no_nl_txt|apply no_nl_app; [apply fmt_no_nl|now apply no_nl_txt]]|reflexivity|].
      do 4 comment.
      apply reads_sdef_then. rewrite <- (app_nil_r ew). apply reads_app; [exact R|].
      do 2 comment. apply reads_comment; [now apply no_nl_txt|reflexivity].
    - intro rest. do 19 apply lines_skip_in. apply lines_head_in. apply no_nl_app; [now apply no_nl_txt|]. apply no_nl_app; [apply fmt_no_nl|now apply no_nl_txt].
  Qed.

  (** ** The energy cards *)
  Inductive energy_deck : reaction -> f64 -> list (list item) -> Prop :=
  | deck_DT T : plain64 (fmul T MeV) -> energy_deck DT T [fusion_card "-1" (1000 * B2R (fmul T MeV))]
  | deck_DD T : plain64 (fmul T MeV) -> energy_deck DDn T [fusion_card "-2" (1000 * B2R (fmul T MeV))]
  | deck_TT T e p : table T = Ok (e, p) -> e <> [] -> p <> [] -> Forall plain64 (map (fun x => fmul x MeV) e) -> Forall plain64 p -> energy_deck TT T
      [ [Word "SI2"; Word "H"; Num 0]%string ++ map Num (map B2R (map (fun x => fmul x MeV) e));
        [Word "SP2"; Word "D"; Num 0]%string ++ map Num (map B2R p) ].
  Lemma fusion_reads64 x code : plain64 x -> (code = "-1" \/ code = "-2")%string ->
    reads (line (txt "SP2 -4 " ++ show64_5e x ++ txt " " ++ txt code)) [map item_word (fusion_card code (1000 * B2R x))].
  Proof.
    intros P C. rewrite (show64_5e_plain x P). replace (B2R x) with (keV_to_MeV (1000 * B2R x)) at 1 by (unfold keV_to_MeV; field). now apply fusion_reads.
  Qed.
  Lemma plain_ranges l : Forall plain64 l -> Forall double_range (map B2R l).
  Proof. intro F. apply fin_ranges. eapply Forall_impl; [|exact F]. now intros a [H _]. Qed.
  Lemma energy_reads64 reac T energy : energy_deck reac T energy -> exists t, energy_cards64 MeV table reac T = Ok t /\ reads t (map (map item_word) energy).
  Proof.
    intros [T0 P|T0 P|T0 e p E Ne Np Pe Pp]; cbn [energy_cards64].
    - eexists. split; [reflexivity|]. apply fusion_reads64; auto.
    - eexists. split; [reflexivity|]. apply fusion_reads64; auto.
    - rewrite E. cbn [bind fst snd]. rewrite !numbers64_plain by assumption.
      destruct (tt_card_reads "SI2" "H" (map B2R (map (fun x => fmul x MeV) e))) as (a & Ea & Ra); try reflexivity; [cbn; lia|destruct e; [congruence|discriminate]|now apply plain_ranges|].
      destruct (tt_card_reads "SP2" "D" (map B2R p)) as (b & Eb & Rb); try reflexivity; [cbn; lia|destruct p; [congruence|discriminate]|now apply plain_ranges|].
      rewrite Ea. cbn [bind]. rewrite Eb. cbn [bind]. eexists. split; [reflexivity|].
      match goal with |- reads _ (map (map item_word) [?x; ?y]) => change (map (map item_word) [x; y]) with ([map item_word x] ++ [map item_word y]) end.
      apply reads_app; assumption.
  Qed.

  (** ** The file *)
  Definition radial_bounds (drad dr : f64) (u : list f64) : list f64 := map (fun x => fsub x drad) u ++ [fadd (fsub (last u f0) drad) dr].
  Lemma r_bounds_ok drad dr r : r <> [] -> Forall fin r -> r_bounds64 r drad dr = Ok (radial_bounds drad dr (np_unique64 r)).
  Proof.
    intros N F. unfold r_bounds64, radial_bounds. assert (Nu : np_unique64 r <> []).
    { destruct r as [|x r]; [congruence|]. cbn [np_unique64 fold_right]. destruct (fold_right insert_unique64 [] r) as [|y l]; [discriminate|]. cbn [insert_unique64]. destruct (Bltb x y); [discriminate|]. destruct (Beqb x y); discriminate. }
    destruct (np_unique64 r) as [|x u]; [congruence|]. cbn [map]. do 2 f_equal. rewrite last_cons. f_equal. f_equal. clear. revert x. induction u as [|y u IH]; intro x; [reflexivity|]. cbn [map]. rewrite last_cons, (last_cons u). apply IH.
  Qed.
  Definition deck_of (energy : list (list item)) (drad dr : f64) (u : list f64) (sums_ : list f64) (parts : list (list f64 * list f64)) : list (list item) :=
    [sdef_card] ++ energy ++
    [ [Word "SI3"; Word "H"]%string ++ map Num (map B2R (radial_bounds drad dr u));
      [Word "SP3"; Word "D"; Num 0]%string ++ map Num (map B2R sums_);
      [Word "DS4"; Word "S"]%string ++ map Nat (seq 5 (length u)) ] ++
    cards_of drad 5 parts.
  Lemma file_reads64 cit (r z : list f64) dr temps reac v T energy cs (parts : list (list f64 * list f64)) :
    let drad := fdiv dr (f64_of_Z 2) in
    proper_citation cit -> r <> [] -> Forall fin r -> by_radius (map B2R r) -> length z = length r -> length v = length r ->
    cs = columns (combine (combine (map B2R r) (map B2R z)) (map B2R v)) ->
    concat (map fst parts) = z -> concat (map snd parts) = v -> map (fun p => length (fst p)) parts = map (fun c : col => length (snd c)) cs -> map (fun p => length (snd p)) parts = map (fun c : col => length (snd c)) cs ->
    mean_ion_temp64 npsum v temps = Ok T -> energy_deck reac T energy -> plain64 (pysum64 v) ->
    Forall plain64 (radial_bounds drad dr (np_unique64 r)) -> Forall plain64 (map (fun p => npsum (snd p)) parts) ->
    Forall (fun p => Forall plain64 (bounds_of drad (fst p)) /\ Forall plain64 (snd p)) parts ->
    (Z.of_nat (5 + length r) < 10 ^ 70)%Z ->
    exists t, file_content64 MeV npsum table cit r z dr temps reac v = Ok t /\
      reads t (map (map item_word) (deck_of energy drad dr (np_unique64 r) (map (fun p => npsum (snd p)) parts) parts)) /\
      In (txt "C Total source neutrons: " ++ fmt_e 6 (B2R (pysum64 v)) ++ txt " n/s") (lines t).
  Proof.
    intros drad Pc N F B Lz Lv Ec Ez Ev L1 L2 ET ED PT PR PS PP Big.
    assert (Lz' : length (map B2R z) = length (map B2R r)) by now rewrite !map_length. assert (Lv' : length (map B2R v) = length (map B2R r)) by now rewrite !map_length.
    destruct (cells_parts _ _ _ Lz' Lv') as (Er & Eh & Es & El). set (l := combine (combine (map B2R r) (map B2R z)) (map B2R v)) in *. rewrite map_length in El.
    assert (Nl : l <> []) by (intro H; rewrite H in El; destruct r; [congruence|discriminate]).
    destruct (energy_reads64 reac T energy ED) as (ec & Ee & Rde).
    destruct (header_reads64 cit reac v temps T ec _ Pc ET Ee Rde PT) as (ht & Eht & Rh & Tot).
    unfold file_content64. fold drad. rewrite Eht. cbn [bind]. rewrite r_bounds_ok by assumption. cbn [bind].
    assert (Lp : length parts = length cs) by (transitivity (length (map (fun p => length (fst p)) parts)); [symmetry; apply map_length|rewrite L1; apply map_length]).
    assert (Ncs : cs <> []) by (intro H; apply Nl, columns_nil; congruence).
    assert (Lu : length (np_unique64 r) = length cs). { transitivity (length (map B2R (np_unique64 r))); [symmetry; apply map_length|]. rewrite (proj1 (unique_R r F)), <- Er, Ec. rewrite <- Er in B. now rewrite (proj2 (columns_radii l B)), map_length. }
    set (rb := radial_bounds drad dr (np_unique64 r)) in *.
    assert (Nrb : map B2R rb <> []) by (unfold rb, radial_bounds; destruct (np_unique64 r); discriminate).
    destruct (si3_reads (map B2R rb) Nrb (plain_ranges _ PR)) as (si & Esi & Rsi).
    unfold si3_card64. rewrite (numbers64_plain rb PR). change (text_wrap (txt "SI3 H " ++ numbers (map B2R rb)) 6 80 1) with (si3_card (map B2R rb)). rewrite Esi. cbn [bind].
    assert (Zi : ranges (z_ints64 r) = segs 0 (map (fun c : col => length (snd c)) cs)) by (rewrite z_ints_R by exact F; rewrite <- Er, Ec; now apply ranges_z_ints).
    unfold sp3_card64. rewrite Zi.
    assert (Sums : map (fun ab => npsum (column v ab)) (segs 0 (map (fun c : col => length (snd c)) cs)) = map (fun p => npsum (snd p)) parts).
    { rewrite <- L2. pose proof (column_segs (map snd parts) []) as H. cbn [app length] in H. rewrite Ev, map_map in H. apply (f_equal (map npsum)) in H. rewrite (map_map snd npsum parts), (map_map (column v) npsum) in H. exact H. }
    match goal with |- context [numbers64 ?a] => replace a with (map (fun p => npsum (snd p)) parts) by (symmetry; exact Sums) end. set (sm := map (fun p => npsum (snd p)) parts) in *.
    assert (Nsm : map B2R sm <> []) by (unfold sm; destruct parts; [destruct cs; [congruence|discriminate]|discriminate]).
    rewrite (numbers64_plain sm PS). destruct (sp3_reads (map B2R sm) _ eq_refl Nsm (plain_ranges _ PS)) as (sp & Esp & Rsp). rewrite Esp. cbn [bind].
    assert (Lrb : length rb = S (length (np_unique64 r))) by (unfold rb, radial_bounds; rewrite app_length, map_length; cbn; lia). rewrite Lrb.
    assert (Lcs : (length cs <= length r)%nat).
    { apply Nat.le_trans with (length l); [|apply Nat.eq_le_incl; exact El]. rewrite Ec. clear. induction l as [|[[a b] c] l IH]; [cbn; lia|]. rewrite columns_step. cbn [length]. destruct (columns l) as [|[r' k] rest]; [cbn; lia|]. destruct (Req_EM_T a r'); cbn [length] in *; lia. }
    destruct (ds4_reads (length (np_unique64 r))) as (ds & Eds & Rds).
    { rewrite Lu. destruct cs; [congruence|discriminate]. }
    { apply Forall_forall. intros k Hk. apply in_seq in Hk. lia. }
    rewrite Eds. cbn [bind].
    destruct (vertical_all64 drad parts [] [] 0 eq_refl) as (out & Eo & Ro).
    { rewrite Forall_forall. intros p Hp. rewrite Forall_forall in PP. destruct (PP p Hp) as [P1 P2].
      assert (Q : Forall (fun p : list f64 * list f64 => fst p <> [] /\ length (snd p) = length (fst p)) parts).
      { assert (Nc : Forall (fun n => n <> 0%nat) (map (fun c : col => length (snd c)) cs)).
        { apply Forall_map. rewrite Ec. eapply Forall_impl; [|apply columns_nonempty]. intros c Hc E. apply Hc. now apply length_zero_iff_nil. }
        rewrite <- L1 in Nc, L2. clear - Nc L2. induction parts as [|[a b] q IH]; [constructor|]. cbn [map fst snd] in *. injection L2 as E E'. constructor; [|apply IH; [exact E'|now inversion Nc]]. cbn [fst snd]. split; [intros ->; now inversion Nc|exact E]. }
      rewrite Forall_forall in Q. destruct (Q p Hp) as [Q1 Q2]. auto. }
    { rewrite Lp. lia. }
    cbn [app length] in Eo. rewrite Ez, Ev, L1 in Eo. rewrite Eo. cbn [bind]. eexists. split; [reflexivity|]. split.
    2: { apply Tot. }
    set (A := [Word "SI3"; Word "H"]%string ++ map Num (map B2R rb)) in *. set (B1 := [Word "SP3"; Word "D"; Num 0]%string ++ map Num (map B2R sm)) in *. set (C1 := [Word "DS4"; Word "S"]%string ++ map Nat (seq 5 (length (np_unique64 r)))) in *.
    assert (Ed : map (map item_word) (deck_of energy drad dr (np_unique64 r) sm parts) = ([map item_word sdef_card] ++ map (map item_word) energy) ++ [map item_word A] ++ [map item_word B1] ++ [map item_word C1] ++ map (map item_word) (cards_of drad 5 parts)).
    { unfold deck_of. fold rb A B1 C1. rewrite !map_app, <- !app_assoc. reflexivity. }
    rewrite Ed.
    apply reads_app; [exact Rh|].
    apply reads_app; [exact Rsi|]. apply reads_app; [exact Rsp|]. apply reads_app; [exact Rds|].
    do 3 comment. exact Ro.
  Qed.
End File.
