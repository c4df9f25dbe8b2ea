(** C57-C59, C61-C63, C67, C68: SDEF files. *)
From Coq Require Import Ascii String List Bool Arith ZArith Lia Sorted.
From Verif Require Import Base Reactions SpecReactions Space SpecSpace P_Space Source SpecSource SourceProofs P_Source OpenMCProofs SpectraData Energy SpecEnergy TextWrap SpecText TextProofs Format SpecFormat FormatProofs P_Text P_Energy Mcnp SpecMcnp McnpProofs SpecSdef SdefProofs TTRange.

(** C67: each file holds its channel. *)
Lemma channel_written d cit stub r z h temps reac v : proper_citation cit -> r <> [] -> by_radius r -> length z = length r -> length temps = length r -> length v = length r ->
  is_neutronic reac = true -> writable d r z h temps (reac, v) ->
  exists t w, (do name <- file_name stub reac; do (t, w) <- file_content d cit (map m_to_cm r) (map m_to_cm z) (m_to_cm h) temps reac v; Ok (name, t, w)) = Ok (name_of stub reac, t, w) /\
    holds_channel d stub r z h temps (reac, v) (name_of stub reac, t).
Proof.
  intros Pc N B Lz Lt Lv Hn (Nt & energy & E & R). cbn [fst snd] in *. destruct (cells_parts r z v Lz Lv) as (Er & Ez & Es & El).
  destruct (file_reads d cit (combine (combine r z) v) h temps reac energy) as (t & w & Ef & Rf); try assumption.
  - intro H. rewrite H in El. destruct r; [congruence|discriminate].
  - now rewrite Er.
  - transitivity (length r); [exact Lt|symmetry; exact El].
  - now rewrite Es.
  - now rewrite Es.
  - rewrite Er, Ez, Es in Ef. exists t, w. rewrite file_name_ok by exact Hn. cbn [bind]. rewrite Ef. cbn [bind fst snd]. split; [reflexivity|]. split; [reflexivity|].
    exists energy. split; [exact E|]. cbn [snd]. rewrite (reads_deck _ _ Rf). clear. induction (expected_deck energy h (columns (combine (combine r z) v))) as [|c cs IH]; constructor; [apply reads_card_words|exact IH].
Qed.
Theorem C67_file_contents : forall d cit stub r z h temps st,
  proper_citation cit -> r <> [] -> by_radius r -> length z = length r -> length temps = length r ->
  (forall channel, In channel st -> neutronic (fst channel) = true -> length (snd channel) = length r /\ writable d r z h temps channel) ->
  exists files w, write_mcnp_sdef_source d cit stub r z h temps st = (files, Ok w) /\
    Forall2 (holds_channel d stub r z h temps) (filter (fun channel => neutronic (fst channel)) st) files.
Proof.
  intros d cit stub r z h temps st Pc N B Lz Lt. unfold write_mcnp_sdef_source. induction st as [|[reac v] st IH]; intro W; [exists [], []; split; [reflexivity|constructor]|].
  destruct IH as (files & w & E & F); [intros; apply W; [now right|assumption]|]. cbn [write_files filter fst]. rewrite neutronic_is. destruct (is_neutronic reac) eqn:Hn.
  - destruct (W (reac, v) (or_introl eq_refl)) as [Lv Wv]; [cbn [fst]; now rewrite neutronic_is|].
    destruct (channel_written d cit stub r z h temps reac v Pc N B Lz Lt Lv Hn Wv) as (t & w' & Ec & Hc).
    rewrite Ec, E. cbn [bind]. do 2 eexists. split; [reflexivity|]. constructor; [exact Hc|exact F].
  - rewrite E. do 2 eexists. split; [reflexivity|]. exact F.
Qed.
Print Assumptions C67_file_contents.

(** Any source a user can hold is listed by radius. *)
Lemma sorted_by_radius (l : list sample) : StronglySorted before l -> by_radius (map (fun c => fst (fst c)) l).
Proof.
  induction 1 as [|a l Hl IH F]; [exact I|]. destruct l as [|b l]; [exact I|]. cbn [map by_radius] in *. split; [|exact IH].
  pose proof (Forall_inv F) as [H|[H _]]; unfold sx in H; lra.
Qed.
Theorem C67_to_sdef_card : forall m u s d cit stub, reachable m u s -> 0 < cell_side s -> cells s <> [] -> proper_citation cit ->
  let r := map (fun c => fst (fst c)) (cells s) in
  let z := map (fun c => snd (fst c)) (cells s) in
  (forall channel, In channel (strength s) -> neutronic (fst channel) = true -> writable d r z (cell_side s) (temperature s) channel) ->
  exists files w, to_sdef_card d cit s stub = (files, Ok w) /\
    Forall2 (holds_channel d stub r z (cell_side s) (temperature s)) (filter (fun channel => neutronic (fst channel)) (strength s)) files.
Proof.
  intros m u s d cit stub H Hh N Pc r z W. unfold to_sdef_card. apply C67_file_contents; try assumption.
  - unfold r. destruct (cells s); [congruence|discriminate].
  - destruct (reachable_sampled m u s H) as [inside E]. apply sorted_by_radius. exact (C30_sampling_order _ _ _ _ _ Hh E).
  - unfold r, z. now rewrite !map_length.
  - unfold r. rewrite map_length. exact (reachable_lengths m u s H).
  - intros channel Hc Hn. split; [|now apply W]. destruct (reachable_consistent m u s H) as (f & C). destruct C as (_ & E & _ & _ & L). rewrite E in Hc. unfold dmap in Hc.
    apply in_map_iff in Hc. destruct Hc as (x & <- & Hx). cbn [snd]. unfold r. rewrite map_length. now apply L.
Qed.
Print Assumptions C67_to_sdef_card.

(** C68: what MCNP samples from a file. *)
Lemma total_app a b : total (a ++ b) = total a + total b.
Proof. induction a as [|x a IH]; cbn; [|rewrite IH]; lra. Qed.
Lemma channel_cells r z (v : list R) : length z = length r -> length v = length r ->
  total (map (fun c => total (strengths c)) (columns (combine (combine r z) v))) = total v /\
  (Forall (fun x => 0 <= x) v -> Forall (fun c => Forall (fun x => 0 <= x) (strengths c)) (columns (combine (combine r z) v))).
Proof.
  intros Lz Lv. destruct (cells_parts r z v Lz Lv) as (_ & _ & Es & _). pose proof (columns_strengths (combine (combine r z) v)) as H. rewrite Es in H. split.
  - rewrite <- H at 2. generalize (columns (combine (combine r z) v)) as cs. induction cs as [|c cs IH]; [reflexivity|]. cbn [map concat total]. rewrite total_app, IH. reflexivity.
  - intro F. rewrite <- H in F. revert F. generalize (columns (combine (combine r z) v)) as cs. induction cs as [|c cs IH]; intro F; [constructor|]. cbn [map concat] in F. apply Forall_app in F. constructor; [apply F|apply IH, F].
Qed.
Theorem C68_sampled_regions : forall d stub r z h temps reac v file, length z = length r -> length v = length r -> Forall (fun x => 0 <= x) v ->
  holds_channel d stub r z h temps (reac, v) file ->
  exists em, emission (read_deck (snd file)) = Some em /\ Forall2 close_region em (regions h (total v) (columns (combine (combine r z) v))).
Proof.
  intros d stub r z h temps reac v file Lz Lv P (_ & energy & E & F). cbn [fst snd] in *.
  destruct (emission_of d reac _ energy h _ _ E F) as (b & p & hs & Ee & Fb & Fp & Fh & _). eexists. split; [exact Ee|].
  destruct (channel_cells r z v Lz Lv) as [T N]. rewrite <- T. apply regions_close; auto.
Qed.
Print Assumptions C68_sampled_regions.

(** C59: the bins. *)
Theorem C59_contiguous_bins : forall h centres, centres <> [] -> contiguous h centres ->
  bins (boundaries h centres) = map (fun c => (100 * (c - h / 2), 100 * (c + h / 2))) centres.
Proof.
  intros h centres N C. unfold boundaries. induction centres as [|a l IH]; [congruence|]. destruct l as [|b l].
  - reflexivity.
  - destruct C as [-> C]. specialize (IH ltac:(discriminate) C). cbn [map app] in *.
    change (last (a :: a + h :: l) 0) with (last (a + h :: l) 0).
    match goal with |- bins (?x :: ?y :: ?t) = _ => change (bins (x :: y :: t)) with ((x, y) :: bins (y :: t)) end. rewrite IH. f_equal. f_equal. lra.
Qed.
Print Assumptions C59_contiguous_bins.
Theorem C59_gap_widens_bin : forall h pre a b post, let i := length pre in
  nth i (bins (boundaries h (pre ++ a :: b :: post))) (0, 0) = (100 * (a - h / 2), 100 * (b - h / 2)) /\
  (b > a + h -> snd (nth i (bins (boundaries h (pre ++ a :: b :: post))) (0, 0)) > 100 * (a + h / 2)).
Proof.
  intros h pre a b post i.
  assert (E : nth i (bins (boundaries h (pre ++ a :: b :: post))) (0, 0) = (100 * (a - h / 2), 100 * (b - h / 2))).
  { unfold boundaries, i. clear i. generalize (100 * (last (pre ++ a :: b :: post) 0 + h / 2)) as e. induction pre as [|x pre IH]; intro e; [reflexivity|].
    specialize (IH e). cbn [app map length].
    destruct (map (fun x0 => 100 * (x0 - h / 2)) (pre ++ a :: b :: post)) as [|y l] eqn:El; [destruct pre; discriminate|]. cbn [app] in *.
    change (bins (100 * (x - h / 2) :: y :: l ++ [e])) with ((100 * (x - h / 2), y) :: bins (y :: l ++ [e])). cbn [nth]. exact IH. }
  split; [exact E|]. rewrite E. cbn [snd]. lra.
Qed.
Print Assumptions C59_gap_widens_bin.

(** Exact regions of contiguous cells are the cells. *)
Lemma regions_contiguous h w cs : Forall (fun c : col => snd c <> []) cs -> contiguous h (map fst cs) -> Forall (fun c => contiguous h (heights c)) cs ->
  regions h w cs = concat (map (fun c : col => map (fun zs => ((100 * (fst c - h / 2), 100 * (fst c + h / 2)), (100 * (fst zs - h / 2), 100 * (fst zs + h / 2)), snd zs / w)) (snd c)) cs).
Proof.
  intros N C Cc. unfold regions. destruct cs as [|c0 cs0]; [reflexivity|]. rewrite C59_contiguous_bins by (discriminate || exact C). revert N Cc. generalize (c0 :: cs0) as cs. clear. 
  induction cs as [|c cs IH]; intros N Cc; [reflexivity|]. cbn [map combine concat fst snd]. rewrite IH by (eapply Forall_inv_tail; eassumption). f_equal.
  rewrite C59_contiguous_bins.
  - unfold heights, strengths. generalize (snd c). intro l. induction l as [|[x s] l IHl]; [reflexivity|]. cbn [map combine fst snd]. now rewrite IHl.
  - pose proof (Forall_inv N) as H. cbv beta in H. unfold heights. destruct (snd c); [congruence|discriminate].
  - exact (Forall_inv Cc).
Qed.
Definition cell_region (h w : R) (c : cell) : region :=
  let '(r, z, s) := c in ((100 * (r - h / 2), 100 * (r + h / 2)), (100 * (z - h / 2), 100 * (z + h / 2)), s / w).
Lemma columns_flat (f : R -> R * R -> region) l : concat (map (fun c : col => map (f (fst c)) (snd c)) (columns l)) = map (fun c => let '(r, z, s) := c in f r (z, s)) l.
Proof.
  induction l as [|[[r z] s] l IH]; [reflexivity|]. rewrite columns_step. cbn [map]. rewrite <- IH. destruct (columns l) as [|[r' c] rest]; [reflexivity|].
  destruct (Req_EM_T r r') as [<-|]; reflexivity.
Qed.
Theorem C59_sampled_regions_are_cells : forall d stub r z h temps reac v file, length z = length r -> length v = length r -> Forall (fun x => 0 <= x) v ->
  let cs := columns (combine (combine r z) v) in
  contiguous h (map fst cs) -> Forall (fun c => contiguous h (heights c)) cs ->
  holds_channel d stub r z h temps (reac, v) file ->
  exists em, emission (read_deck (snd file)) = Some em /\ Forall2 close_region em (map (cell_region h (total v)) (combine (combine r z) v)).
Proof.
  intros d stub r z h temps reac v file Lz Lv P cs C Cc H. destruct (C68_sampled_regions d stub r z h temps reac v file Lz Lv P H) as (em & E & F). exists em. split; [exact E|].
  fold cs in F. rewrite (regions_contiguous h (total v) cs (columns_nonempty _) C Cc) in F.
  pose proof (columns_flat (fun r zs => ((100 * (r - h / 2), 100 * (r + h / 2)), (100 * (fst zs - h / 2), 100 * (fst zs + h / 2)), snd zs / total v)) (combine (combine r z) v)) as Q.
  cbv beta in Q. unfold cs in F. unfold region, col in *. rewrite Q in F. exact F.
Qed.
Print Assumptions C59_sampled_regions_are_cells.

(** C57: probabilities on the cards. *)
Theorem C57_card_probabilities : forall d stub r z h temps reac v file, length z = length r -> length v = length r ->
  holds_channel d stub r z h temps (reac, v) file ->
  let deck := read_deck (snd file) in
  let cs := columns (combine (combine r z) v) in
  (exists p, entry_numbers "SP" 3 "D" deck = Some (0 :: p) /\ Forall2 (close (5 / 10 ^ 6)) p (map (fun c => total (strengths c)) cs)) /\
  (forall i c, nth_error cs i = Some c -> exists p, entry_numbers "SP" (INR (5 + i)) "D" deck = Some (0 :: p) /\ Forall2 (close (5 / 10 ^ 6)) p (strengths c)) /\
  concat (map strengths cs) = v /\ total (map (fun c => total (strengths c)) cs) = total v.
Proof.
  intros d stub r z h temps reac v file Lz Lv (_ & energy & E & F) deck cs. cbn [fst snd] in *.
  destruct (emission_of d reac _ energy h _ _ E F) as (b & p & hs & _ & _ & Fp & _ & _ & Ep & _ & Ce).
  assert (Cl : forall a b, Forall2 shown_as a b -> Forall2 (close (5 / 10 ^ 6)) a b) by (clear; induction 1; constructor; [now apply shown_close|assumption]).
  split; [|split; [|split]].
  - exists p. split; [exact Ep|]. now apply Cl.
  - intros i c Hc. destruct (Ce i c Hc) as (_ & q & _ & Eq & _ & Fq). exists q. split; [exact Eq|]. now apply Cl.
  - unfold cs. rewrite columns_strengths. apply (cells_parts r z v Lz Lv).
  - apply channel_cells; assumption.
Qed.
Print Assumptions C57_card_probabilities.

(** C58: cross references. *)
Lemma column_cards_length h cs : forall n, length (column_cards h n cs) = (2 * length cs)%nat.
Proof. induction cs as [|c cs IH]; intro n; [reflexivity|]. cbn [column_cards length]. rewrite IH. lia. Qed.
Lemma seq_plus5 n : forall k, seq (5 + k) n = map (fun i => (5 + i)%nat) (seq k n).
Proof. induction n as [|n IH]; intro k; [reflexivity|]. cbn [seq map]. f_equal. apply (IH (S k)). Qed.
Theorem C58_cross_references : forall d stub r z h temps reac v file,
  holds_channel d stub r z h temps (reac, v) file ->
  let deck := read_deck (snd file) in
  exists b p ids, entry_numbers "SI" 3 "H" deck = Some b /\ entry_numbers "SP" 3 "D" deck = Some (0 :: p) /\ entry_numbers "DS" 4 "S" deck = Some ids /\
    length b = S (length ids) /\ length p = length ids /\ NoDup ids /\ Forall (fun i => 4 < i) ids /\
    ids = map (fun i => INR (5 + i)) (seq 0 (length ids)) /\
    length deck = (4 + match reac with TT => 2 | _ => 1 end + 2 * length ids)%nat /\
    Forall (fun i => exists bz pz, entry_numbers "SI" i "H" deck = Some bz /\ entry_numbers "SP" i "D" deck = Some (0 :: pz) /\ length bz = S (length pz) /\ pz <> []) ids.
Proof.
  intros d stub r z h temps reac v file (_ & energy & E & F) deck. cbn [fst snd] in *.
  destruct (emission_of d reac _ energy h _ _ E F) as (b & p & hs & _ & Fb & Fp & _ & Eb & Ep & Ed & Ce). set (cs := columns (combine (combine r z) v)) in *.
  exists b, p, (map INR (seq 5 (length cs))). rewrite map_length, seq_length. split; [exact Eb|]. split; [exact Ep|]. split; [exact Ed|].
  rewrite (Forall2_length _ _ _ Fb), (Forall2_length _ _ _ Fp), boundaries_length, !map_length. split; [reflexivity|]. split; [reflexivity|]. split; [|split; [|split; [|split]]].
  - apply FinFun.Injective_map_NoDup; [intros a c; apply INR_eq|apply seq_NoDup].
  - apply Forall_map, Forall_forall. intros k Hk. apply in_seq in Hk. replace 4 with (INR 4) by (cbn; lra). apply lt_INR. lia.
  - rewrite <- (map_map (fun i => (5 + i)%nat) INR). f_equal. exact (seq_plus5 (length cs) 0).
  - transitivity (length (expected_deck energy h cs)); [symmetry; exact (Forall2_length _ _ _ F)|]. unfold expected_deck. rewrite !app_length. cbn [length]. rewrite column_cards_length. destruct E; cbn [length radial_cards]; lia.
  - apply Forall_map, Forall_forall. intros k Hk. apply in_seq in Hk. destruct (nth_error cs (k - 5)) as [c|] eqn:En.
    + destruct (Ce _ c En) as (bz & pz & A & B & Fz & Fq). replace (5 + (k - 5))%nat with k in A, B by lia. exists bz, pz. split; [exact A|]. split; [exact B|].
      rewrite (Forall2_length _ _ _ Fz), (Forall2_length _ _ _ Fq), boundaries_length. unfold heights, strengths. rewrite !map_length. split; [reflexivity|].
      assert (Nc : snd c <> []) by (pose proof (columns_nonempty (combine (combine r z) v)) as Nn; rewrite Forall_forall in Nn; apply Nn; now apply nth_error_In in En).
      intros ->. apply Forall2_length in Fq. unfold strengths in Fq. rewrite map_length in Fq. destruct (snd c); [now apply Nc|discriminate].
    + apply nth_error_None in En. lia.
Qed.
Print Assumptions C58_cross_references.

(** C61: the header. *)
Lemma lines_from_skip p : forall cur rest t, In t (lines rest) -> In t (lines_from cur (p ++ newline :: rest)).
Proof.
  induction p as [|c p IH]; intros cur rest t H; cbn [app lines_from].
  - right. exact H.
  - destruct (is_newline c); [right|]; now apply IH.
Qed.
Lemma lines_skip p rest t : In t (lines rest) -> In t (lines (line p ++ rest)).
Proof. intro H. unfold line. rewrite <- app_assoc. now apply lines_from_skip. Qed.
Lemma lines_head t rest : no_nl t -> In t (lines (line t ++ rest)).
Proof. intro N. unfold line. rewrite <- app_assoc. cbn [app]. rewrite lines_line by exact N. now left. Qed.
Lemma lines_skip_in p b rest t : In t (lines (b ++ rest)) -> In t (lines ((line p ++ b) ++ rest)).
Proof. rewrite <- app_assoc. apply lines_skip. Qed.
Lemma lines_head_in t b rest : no_nl t -> In t (lines ((line t ++ b) ++ rest)).
Proof. rewrite <- app_assoc. apply lines_head. Qed.
Definition total_line (v : text) : text := txt "C Total source neutrons: " ++ v ++ txt " n/s".
Lemma header_total d cit reac v temps t w rest : sdef_header d cit reac v temps = Ok (t, w) ->
  In (total_line (fmt_e 6 (total v))) (lines (t ++ rest)) /\ In (txt "C Reaction channel: " ++ txt (label reac)) (lines (t ++ rest)).
Proof.
  unfold sdef_header. destruct (mean_ion_temp v temps) as [T|e|]; cbn [bind]; try discriminate. destruct (energy_cards d reac T) as [[cards w']|e|]; cbn [bind]; try discriminate.
  rewrite pysum_total. match goal with |- Ok (?x, _) = _ -> _ => intro E; assert (Et : t = x) by congruence; rewrite Et; clear E Et end. split.
  - do 19 apply lines_skip_in. apply lines_head_in. apply no_nl_app; [now apply no_nl_txt|]. apply no_nl_app; [apply fmt_no_nl|now apply no_nl_txt].
  - do 18 apply lines_skip_in. apply lines_head_in. apply no_nl_app; [now apply no_nl_txt|]. apply no_nl_txt. now destruct reac.
Qed.
Lemma content_total d cit r z dr temps reac v t w : file_content d cit r z dr temps reac v = Ok (t, w) ->
  In (total_line (fmt_e 6 (total v))) (lines t) /\ In (txt "C Reaction channel: " ++ txt (label reac)) (lines t).
Proof.
  unfold file_content. destruct (sdef_header d cit reac v temps) as [[hd w']|e|] eqn:Eh; cbn [bind]; try discriminate. intro E.
  repeat match type of E with (do _ <- ?x; _) = _ => destruct x; cbn [bind] in E; try discriminate end. injection E as <- _. exact (header_total _ _ _ _ _ _ _ _ Eh).
Qed.
Lemma files_written d cit stub r z dr temps st file : In file (fst (write_files d cit stub r z dr temps st)) ->
  exists reac v w, In (reac, v) st /\ is_neutronic reac = true /\ fst file = name_of stub reac /\ file_content d cit r z dr temps reac v = Ok (snd file, w).
Proof.
  induction st as [|[reac v] st IH]; [easy|]. cbn [write_files]. destruct (is_neutronic reac) eqn:Hn.
  2: { intro H. destruct (IH H) as (r' & v' & w & H1 & H2). exists r', v', w. split; [now right|exact H2]. }
  rewrite file_name_ok by exact Hn. cbn [bind]. destruct (file_content d cit r z dr temps reac v) as [[t w]|e|] eqn:Ec; cbn [bind fst snd]; try easy.
  destruct (write_files d cit stub r z dr temps st) as [files out]. cbn [fst]. intros [<-|H].
  - exists reac, v, w. split; [now left|]. auto.
  - destruct (IH H) as (r' & v' & w' & H1 & H2). exists r', v', w'. split; [now right|exact H2].
Qed.
Theorem C61_total_line : forall d cit stub r z h temps st file, In file (fst (write_mcnp_sdef_source d cit stub r z h temps st)) ->
  exists reac v w, In (reac, v) st /\ neutronic reac = true /\ fst file = name_of stub reac /\
    In (txt "C Reaction channel: " ++ txt (label reac)) (lines (snd file)) /\
    In (txt "C Total source neutrons: " ++ w ++ txt " n/s") (lines (snd file)) /\ shows 6 w (total v).
Proof.
  intros d cit stub r z h temps st file H. apply files_written in H. destruct H as (reac & v & w & Hin & Hn & Hf & Hc). apply content_total in Hc. destruct Hc as [H1 H2].
  exists reac, v, (fmt_e 6 (total v)). rewrite neutronic_is. repeat (split; [assumption|]). apply fmt_e_shows.
Qed.
Print Assumptions C61_total_line.

Theorem C61_total_is_rate_T_T_half : forall m u s d cit stub file, reachable m u s -> In file (fst (to_sdef_card d cit s stub)) ->
  exists reac n w, dget (num_neutrons_ps s) reac = Some n /\ fst file = name_of stub reac /\
    In (txt "C Total source neutrons: " ++ w ++ txt " n/s") (lines (snd file)) /\
    ((reac = DT \/ reac = DDn) /\ shows 6 w n \/ reac = TT /\ shows 6 w (n / 2)).
Proof.
  intros m u s d cit stub file H Hf. destruct (C61_total_line _ _ _ _ _ _ _ _ _ Hf) as (reac & v & w & Hin & Hn & Hname & _ & Hl & Hs).
  destruct (reachable_consistent m u s H) as (f & C). pose proof C as (_ & E & _ & E3 & _). rewrite E in Hin. unfold dmap in Hin. apply in_map_iff in Hin. destruct Hin as (x & Hx & Hs').
  injection Hx as -> <-. exists reac, (pysum (f reac) * INR (num_neutrons reac)), w. rewrite E3, dget_dmap_in by exact Hs'. split; [reflexivity|]. split; [exact Hname|]. split; [exact Hl|].
  rewrite pysum_total. destruct reac; try discriminate Hn; cbn [num_neutrons INR].
  - left. split; [now left|]. now replace (total (f DT) * 1) with (total (f DT)) by ring.
  - left. split; [now right|]. now replace (total (f DDn) * 1) with (total (f DDn)) by ring.
  - right. split; [reflexivity|]. now replace (total (f TT) * (1 + 1) / 2) with (total (f TT)) by field.
Qed.
Print Assumptions C61_total_is_rate_T_T_half.

Lemma close_all a b : Forall2 shown_as a b -> Forall2 (close (5 / 10 ^ 6)) a b.
Proof. induction 1; constructor; [now apply shown_close|assumption]. Qed.
Theorem C61_energy_cards : forall d stub r z h temps reac v file, holds_channel d stub r z h temps (reac, v) file ->
  let deck := read_deck (snd file) in
  let T := weighted_mean v temps in
  match reac with
  | DT => exists w, In [txt "SP2"; txt "-4"; w; txt "-1"] deck /\ shows 6 w (T / 1000)
  | DDn => exists w, In [txt "SP2"; txt "-4"; w; txt "-2"] deck /\ shows 6 w (T / 1000)
  | TT => exists e p es ps, tt_table d T e p /\
      entry_numbers "SI" 2 "H" deck = Some (0 :: es) /\ Forall2 (close (5 / 10 ^ 6)) es (map (fun x => x / 1000) e) /\
      entry_numbers "SP" 2 "D" deck = Some (0 :: ps) /\ Forall2 (close (5 / 10 ^ 6)) ps p /\ length es = length ps /\ es <> []
  | _ => False
  end.
Proof.
  intros d stub r z h temps reac v file (_ & energy & E & F) deck T. cbn [fst snd] in *. fold deck in F. change (weighted_mean v temps) with T in E. clearbody T deck.
  unfold expected_deck in F. apply Forall2_app_inv_l in F. destruct F as (d0 & d1 & F0 & F1 & ->). apply Forall2_app_inv_l in F1. destruct F1 as (ews & d2 & Fe & F2 & ->).
  inversion F0 as [|? w0 ? ? R0 F0']; subst. inversion F0'; subst. destruct E as [T|T|T e p Ht].
  - inversion Fe as [|? w1 ? ? R1 F3]; subst. inversion F3; subst. inversion R1 as [|? a ? ? A1 R2]; subst. inversion R2 as [|? b ? ? A2 R3]; subst. inversion R3 as [|? c ? ? A3 R4]; subst. inversion R4 as [|? e ? ? A4 R5]; subst. inversion R5; subst.
    cbn [reads_item] in A1, A2, A3, A4. subst. exists c. split; [right; now left|exact A3].
  - inversion Fe as [|? w1 ? ? R1 F3]; subst. inversion F3; subst. inversion R1 as [|? a ? ? A1 R2]; subst. inversion R2 as [|? b ? ? A2 R3]; subst. inversion R3 as [|? c ? ? A3 R4]; subst. inversion R4 as [|? e ? ? A4 R5]; subst. inversion R5; subst.
    cbn [reads_item] in A1, A2, A3, A4. subst. exists c. split; [right; now left|exact A3].
  - inversion Fe as [|? w1 ? ? R1 F3]; subst. inversion F3 as [|? w2 ? ? R2 F4]; subst. inversion F4; subst. cbn [app].
    assert (FS : family "SI") by now left. assert (FP : family "SP") by (right; now left).
    destruct (entries_hit "SI" 2 "H" _ w1 (w2 :: d2) _ _ R1 eq_refl eq_refl) as (e1 & E1 & Q1).
    destruct (entries_hit "SP" 2 "D" _ w2 d2 _ _ R2 eq_refl eq_refl) as (e2 & E2 & Q2).
    assert (Q1' : reads_card (map Num (0 :: map (fun x => x / 1000) e)) e1) by (cbn [map]; rewrite map_map; exact Q1).
    destruct (read_nums _ _ Q1') as (es & Es & Fs). destruct (read_nums (0 :: p) _ Q2) as (ps & Eq & Fq).
    inversion Fs as [|x ? es' ? H0 Fs']; subst. inversion Fq as [|y ? ps' ? H1 Fq']; subst. apply shown_zero in H0, H1. subst.
    assert (Nk : ("SI" <> "SP")%string) by discriminate.
    assert (ES : entries "SI" 2 "H" (w0 :: w1 :: w2 :: d2) = Some e1).
    { rewrite (entries_sdef "SI" 2 "H" w0 _ R0 FS). replace 2 with (INR 2) by (cbn; lra). exact E1. }
    assert (EP : entries "SP" 2 "D" (w0 :: w1 :: w2 :: d2) = Some e2).
    { rewrite (entries_sdef "SP" 2 "D" w0 _ R0 FP). replace 2 with (INR 2) by (cbn; lra). rewrite (entries_miss "SP" 2 "D" _ w1 (w2 :: d2) _ _ _ _ R1 eq_refl eq_refl FS FP (or_introl Nk)). exact E2. }
    exists e, p, es', ps'. split; [exact Ht|]. unfold entry_numbers. rewrite ES, EP.
    split; [exact Es|]. split; [now apply close_all|]. split; [exact Eq|]. split; [now apply close_all|].
    destruct (tt_nonempty d T e p Ht) as [Ne Np]. destruct Ht as [w Ew]. destruct (C45_energy_spectrum_normalised d T TT SData e p w Ew) as [L _].
    apply Forall2_length in Fs', Fq'. rewrite map_length in Fs'. split; [congruence|]. intros ->. destruct e; [congruence|discriminate].
Qed.
Print Assumptions C61_energy_cards.

(** C62: mean ion temperature. *)
Theorem C62_between_emitting_cells : forall st temps lo hi, length temps = length st -> Forall (fun x => 0 <= x) st -> total st <> 0 ->
  (forall i, 0 < nth i st 0 -> lo <= nth i temps 0 <= hi) ->
  exists T, mean_ion_temp st temps = Ok (Fin T) /\ lo <= T <= hi.
Proof.
  intros st temps lo hi L N Z B. rewrite mean_weighted by assumption. eexists. split; [reflexivity|]. unfold weighted_mean.
  assert (P : 0 < total st). { assert (0 <= total st) by (clear - N; induction N; cbn; lra). lra. }
  apply ratio_in; [exact P|]. clear Z P. revert temps L B. induction N as [|s st Hs N IH]; intros [|t temps] L B; try discriminate; [cbn; lra|].
  cbn [combine map total fst snd]. specialize (IH temps ltac:(cbn in L; lia) (fun i => B (S i))). destruct (Rle_lt_or_eq_dec 0 s Hs) as [Ps| <-]; [|lra].
  specialize (B 0%nat Ps). cbn [nth] in B. nra.
Qed.
Print Assumptions C62_between_emitting_cells.
Theorem C62_unchanged_by_normalisation : forall st temps k, 0 < k -> mean_ion_temp (map (fun x => x * k) st) temps = mean_ion_temp st temps.
Proof.
  intros st temps k Hk. unfold mean_ion_temp. rewrite map_length. destruct (length st =? length temps)%nat; [|reflexivity]. f_equal. rewrite !pysum_total.
  assert (E1 : total (map (fun x => x * k) st) = total st * k) by (clear - st; induction st as [|x st IH]; cbn; [ring|rewrite IH; ring]).
  assert (E2 : total (map2 Rmult (map (fun x => x * k) st) temps) = total (map2 Rmult st temps) * k).
  { clear - st. revert temps; induction st as [|x st IH]; intros [|t temps]; cbn; try ring. rewrite IH. ring. }
  rewrite E1, E2. unfold f_div. set (a := total (map2 Rmult st temps)). set (b := total st). clearbody a b.
  assert (Zm : forall x, x * k = 0 -> x = 0) by (intros x Hx; apply Rmult_integral in Hx; destruct Hx; [assumption|lra]).
  destruct (Reqb_spec (b * k) 0) as [Z|Z], (Reqb_spec b 0) as [Z'|Z'].
  - destruct (Reqb_spec (a * k) 0) as [A|A], (Reqb_spec a 0) as [A'|A'].
    + reflexivity.
    + exfalso. apply A'. now apply Zm.
    + exfalso. apply A. rewrite A'. ring.
    + f_equal. destruct (Rltb_spec 0 (a * k)), (Rltb_spec 0 a); try reflexivity; exfalso; nra.
  - exfalso. apply Z'. now apply Zm.
  - exfalso. apply Z. rewrite Z'. ring.
  - f_equal. field. lra.
Qed.
Print Assumptions C62_unchanged_by_normalisation.
Theorem C62_isothermal : forall st T, total st <> 0 -> mean_ion_temp st (repeat T (length st)) = Ok (Fin T).
Proof.
  intros st T Z. rewrite mean_weighted by (rewrite ?repeat_length; auto). do 2 f_equal. unfold weighted_mean.
  replace (total (map (fun p => fst p * snd p) (combine st (repeat T (length st))))) with (total st * T); [now field|]. clear Z. induction st as [|x st IH]; cbn; [ring|]. rewrite <- IH. ring.
Qed.
Print Assumptions C62_isothermal.
Theorem C62_finite_iff_strength : forall st temps, length temps = length st ->
  ((exists T, mean_ion_temp st temps = Ok (Fin T)) <-> total st <> 0) /\
  (Forall (fun x => 0 <= x) st -> total st = 0 -> mean_ion_temp st temps = Ok Nan).
Proof.
  intros st temps L. split; [split|].
  - intros (T & E) Z. unfold mean_ion_temp, f_div in E. rewrite L, Nat.eqb_refl, !pysum_total in E. destruct (Reqb_spec (total st) 0); [|contradiction].
    destruct (Reqb (total (map2 Rmult st temps)) 0); discriminate.
  - intro Z. rewrite mean_weighted by assumption. eauto.
  - intros N Z. unfold mean_ion_temp, f_div. rewrite L, Nat.eqb_refl, !pysum_total. destruct (Reqb_spec (total st) 0); [|contradiction].
    replace (total (map2 Rmult st temps)) with 0; [destruct (Reqb_spec 0 0); [reflexivity|congruence]|].
    clear L e. revert temps Z; induction N as [|x st Hx N IH]; intros temps Z; [reflexivity|]. cbn [total] in Z. assert (0 <= total st) by (clear - N; induction N; cbn; lra).
    destruct temps as [|t temps]; [reflexivity|]. cbn [map2 total]. rewrite <- (IH temps) by lra. replace x with 0 by lra. ring.
Qed.
Print Assumptions C62_finite_iff_strength.
Theorem C62_lengths_must_agree : forall st temps, length temps <> length st -> mean_ion_temp st temps = Err EValue.
Proof. intros st temps L. unfold mean_ion_temp. destruct (Nat.eqb_spec (length st) (length temps)); [congruence|reflexivity]. Qed.
Print Assumptions C62_lengths_must_agree.

(** Consequences of a zero strength for the file: the D-T card has a word that is no number; a T-T file is not written at all. *)
Theorem C62_zero_strength_refuted : forall d cit stub r z h temps st n, r <> [] -> length temps = n -> length r = n -> length z = n ->
  fst (write_mcnp_sdef_source d cit stub r z h temps ((TT, repeat 0 n) :: st)) = [] /\
  snd (write_mcnp_sdef_source d cit stub r z h temps ((TT, repeat 0 n) :: st)) = Err EValue.
Proof.
  intros d cit stub r z h temps st n Nr Lt Lr Lz. unfold write_mcnp_sdef_source. cbn [write_files is_neutronic]. rewrite file_name_ok by reflexivity. cbn [bind].
  unfold file_content, sdef_header. destruct (C62_finite_iff_strength (repeat 0 n) temps) as [_ H]; [now rewrite repeat_length|].
  rewrite H; [cbn [bind energy_cards tt_spectrum]; auto| |].
  - clear. induction n; constructor; [lra|assumption].
  - clear. induction n as [|n IH]; cbn; [reflexivity|]. rewrite IH. ring.
Qed.
Print Assumptions C62_zero_strength_refuted.

(** C63: the files. *)
Theorem C63_files : forall d cit stub r z h temps st,
  let names := map (fun channel => name_of stub (fst channel)) (filter (fun channel => neutronic (fst channel)) st) in
  let result := write_mcnp_sdef_source d cit stub r z h temps st in
  (exists k, map fst (fst result) = firstn k names) /\ (forall w, snd result = Ok w -> map fst (fst result) = names).
Proof.
  intros d cit stub r z h temps st names result.
  assert (G : (exists rest, names = map fst (fst result) ++ rest) /\ (forall w, snd result = Ok w -> map fst (fst result) = names)).
  { unfold names, result, write_mcnp_sdef_source. clear names result. generalize (map m_to_cm r) as r', (map m_to_cm z) as z', (m_to_cm h) as h'. intros r' z' h'.
    induction st as [|[reac v] st [[rest IH1] IH2]]; [split; [exists []; reflexivity|reflexivity]|].
    cbn [write_files filter fst]. rewrite neutronic_is. destruct (is_neutronic reac) eqn:Hn; [|split; [exists rest; exact IH1|exact IH2]].
    rewrite file_name_ok by exact Hn. cbn [bind]. destruct (file_content d cit r' z' h' temps reac v) as [[t w]|e|]; cbn [bind fst snd].
    - destruct (write_files d cit stub r' z' h' temps st) as [files out]. cbn [fst snd map] in *. split.
      + exists rest. rewrite IH1. reflexivity.
      + intros w' E. destruct out as [w2|e|]; try discriminate. now rewrite (IH2 w2 eq_refl).
    - split; [eexists; reflexivity|discriminate].
    - split; [eexists; reflexivity|discriminate]. }
  destruct G as [[rest G] H]. split; [|exact H]. exists (length (map fst (fst result))). rewrite G, firstn_app, firstn_all, Nat.sub_diag. cbn. now rewrite app_nil_r.
Qed.
Print Assumptions C63_files.
Lemma extension_distinct stub a b : neutronic a = true -> neutronic b = true -> name_of stub a = name_of stub b -> a = b.
Proof.
  unfold name_of. intros Ha Hb E. apply app_inv_head in E. rewrite neutronic_is in Ha, Hb. destruct a, b; try discriminate; reflexivity.
Qed.
Theorem C63_one_file_per_channel : forall m u s d cit stub w, reachable m u s ->
  snd (to_sdef_card d cit s stub) = Ok w ->
  map fst (fst (to_sdef_card d cit s stub)) = map (name_of stub) (filter neutronic (source_type s)) /\
  NoDup (map fst (fst (to_sdef_card d cit s stub))).
Proof.
  intros m u s d cit stub w H E. unfold to_sdef_card in *.
  destruct (C63_files d cit stub (map (fun c => fst (fst c)) (cells s)) (map (fun c => snd (fst c)) (cells s)) (cell_side s) (temperature s) (strength s)) as [_ G]. specialize (G w E).
  destruct (reachable_consistent m u s H) as (f & N & E1 & _). rewrite E1 in G at 2.
  assert (Q : map (fun channel : reaction * list R => name_of stub (fst channel)) (filter (fun channel => neutronic (fst channel)) (dmap f (source_type s))) = map (name_of stub) (filter neutronic (source_type s))).
  { unfold dmap. clear. induction (source_type s) as [|r l IH]; [reflexivity|]. cbn [map filter fst]. destruct (neutronic r); cbn [map fst]; now rewrite IH. }
  rewrite Q in G. rewrite G. split; [reflexivity|].
  clear - N. induction N as [|r l Hr N IH]; [constructor|]. cbn [filter]. destruct (neutronic r) eqn:Hn; [|exact IH]. cbn [map]. constructor; [|exact IH].
  intro Hi. apply in_map_iff in Hi. destruct Hi as (x & Ex & Hx). apply filter_In in Hx. destruct Hx as [Hx1 Hx2]. apply extension_distinct in Ex; try assumption. congruence.
Qed.
Print Assumptions C63_one_file_per_channel.

(** Cells that are not listed by radius: three columns are written for two radial bins, so the cross references are wrong. *)
Theorem C58_unsorted_refuted : r_bounds [1; 2; 1] (1/2) 1 = Ok [1 - 1/2; 2 - 1/2; 2 - 1/2 + 1] /\ length (ranges (z_ints [1; 2; 1])) = 3%nat.
Proof.
  split.
  - unfold r_bounds, np_unique. cbn [fold_right insert_unique].
    repeat (match goal with |- context [Rltb ?a ?b] => destruct (Rltb_spec a b); try (exfalso; lra) | |- context [Reqb ?a ?b] => destruct (Reqb_spec a b); try (exfalso; lra) end; cbn [insert_unique]).
    reflexivity.
  - unfold z_ints. cbn [changes_from]. repeat (match goal with |- context [Reqb ?a ?b] => destruct (Reqb_spec a b); try (exfalso; lra) end). reflexivity.
Qed.
Print Assumptions C58_unsorted_refuted.
Theorem C58_no_cells_refuted : forall d cit stub h reac st, neutronic reac = true -> snd (write_mcnp_sdef_source d cit stub [] [] h [] ((reac, []) :: st)) = Err EIndex \/
  snd (write_mcnp_sdef_source d cit stub [] [] h [] ((reac, []) :: st)) = Err EValue.
Proof.
  intros d cit stub h reac st Hn. rewrite neutronic_is in Hn. unfold write_mcnp_sdef_source. cbn [write_files map]. rewrite Hn, file_name_ok by exact Hn. cbn [bind].
  unfold file_content, sdef_header. destruct (C62_finite_iff_strength [] [] eq_refl) as [_ H]. rewrite H; [|constructor|reflexivity]. cbn [bind].
  destruct reac; try discriminate Hn; cbn [energy_cards tt_spectrum bind fst snd]; [left|left|right]; reflexivity.
Qed.
Print Assumptions C58_no_cells_refuted.


(** With the shipped T-T data every neutronic channel can be written, at every temperature, as soon as its strength is not zero
    and the numbers of its cells are in range. *)
Lemma sdef_in_range : items_in_range [sdef_card].
Proof. unfold sdef_card. constructor; [|constructor]. apply Forall_map, Forall_forall. intros w _. exact I. Qed.
Lemma tt_energy_in_range T e p : tt_table tt_shipped T e p ->
  items_in_range [ [Word "SI2"; Word "H"; Num 0]%string ++ map (fun x => Num (x / 1000)) e; [Word "SP2"; Word "D"; Num 0]%string ++ map Num p ].
Proof.
  intro H. destruct (tt_cards_in_range T e p H) as [He Hp]. clear H. assert (Z : double_range 0) by now left.
  constructor; [|constructor; [|constructor]]; (apply Forall_app; split; [apply Forall_cons; [exact I|]; apply Forall_cons; [exact I|]; apply Forall_cons; [exact Z|constructor]|apply Forall_map]); assumption.
Qed.
Theorem C67_writable_with_shipped_data : forall r z h temps reac v, neutronic reac = true -> total v <> 0 ->
  double_range (weighted_mean v temps / 1000) ->
  items_in_range (radial_cards h (columns (combine (combine r z) v)) ++ column_cards h 5 (columns (combine (combine r z) v))) ->
  writable tt_shipped r z h temps (reac, v).
Proof.
  intros r z h temps reac v Hn Ht HT Hr. split; [exact Ht|]. cbn [fst snd]. rewrite neutronic_is in Hn.
  assert (G : exists energy, expected_energy tt_shipped reac (weighted_mean v temps) energy /\ items_in_range energy).
  { destruct reac; try discriminate Hn.
    - eexists. split; [constructor|]. constructor; [|constructor]. unfold fusion_card. apply Forall_cons; [exact I|]. apply Forall_cons; [exact I|]. apply Forall_cons; [exact HT|]. apply Forall_cons; [exact I|constructor].
    - eexists. split; [constructor|]. constructor; [|constructor]. unfold fusion_card. apply Forall_cons; [exact I|]. apply Forall_cons; [exact I|]. apply Forall_cons; [exact HT|]. apply Forall_cons; [exact I|constructor].
    - destruct (C50_every_temperature (weighted_mean v temps)) as (e & p & w & E & _). assert (Q : tt_table tt_shipped (weighted_mean v temps) e p) by (exists w; exact E).
      eexists. split; [apply energy_TT, Q|]. exact (tt_energy_in_range _ e p Q). }
  destruct G as (energy & E & R). exists energy. split; [exact E|]. unfold expected_deck. apply Forall_app. split; [exact sdef_in_range|]. apply Forall_app. now split.
Qed.
Print Assumptions C67_writable_with_shipped_data.

(** A concrete plasma meets the hypotheses: three cells, two columns, all three neutronic channels and an aneutronic one. *)
Definition ex_r : list R := [1; 1; 2].
Definition ex_z : list R := [0; 1; 0].
Definition ex_temps : list R := [10; 10; 20].
Definition ex_strength : dict (list R) := [(DT, [1; 2; 3]); (DDp, [1; 1; 1]); (TT, [4; 0; 2]); (DDn, [1; 1; 1])].
Definition ex_citation : citation := {| cit_authors := [(txt "A", txt "B", txt "C")]; cit_repository := txt "https://example.org" |}.
Lemma moderate x : x = 0 \/ 1 / 1000 <= Rabs x <= 1000 -> double_range x.
Proof.
  intros [H|H]; [now left|right]. assert (powerRZ 10 (-400) <= 1 / 1000 /\ 1000 <= powerRZ 10 400); [|lra]. split.
  - replace (1 / 1000) with (powerRZ 10 (-3)); [apply pow10_le; lia|]. change (powerRZ 10 (-3)) with (/ 10 ^ 3). unfold Rdiv. rewrite Rmult_1_l. f_equal. lra.
  - replace 1000 with (powerRZ 10 3); [apply pow10_le; lia|]. change (powerRZ 10 3) with (10 ^ 3). lra.
Qed.
Lemma ex_columns v1 v2 v3 : columns (combine (combine ex_r ex_z) [v1; v2; v3]) = [(1, [(0, v1); (1, v2)]); (2, [(0, v3)])].
Proof.
  unfold ex_r, ex_z. cbn [combine columns]. destruct (Req_EM_T 1 2); [lra|]. destruct (Req_EM_T 1 1); [reflexivity|congruence].
Qed.
Lemma ex_writable channel : In channel ex_strength -> neutronic (fst channel) = true -> length (snd channel) = length ex_r /\ writable tt_shipped ex_r ex_z 1 ex_temps channel.
Proof.
  assert (G : forall reac v1 v2 v3, neutronic reac = true -> 0 <= v1 <= 4 -> 0 <= v2 <= 4 -> 1 <= v3 <= 4 -> (v1 = 0 \/ 1 <= v1) -> (v2 = 0 \/ 1 <= v2) -> 1 <= v1 + v2 ->
    length [v1; v2; v3] = length ex_r /\ writable tt_shipped ex_r ex_z 1 ex_temps (reac, [v1; v2; v3])).
  { intros reac v1 v2 v3 Hn H1 H2 H3 D1 D2 H12. split; [reflexivity|]. apply C67_writable_with_shipped_data; [exact Hn|cbn [total]; lra| |].
    - apply moderate. right. unfold weighted_mean, ex_temps. cbn [combine map total fst snd].
      set (W := v1 + (v2 + (v3 + 0))). assert (HW : 1 <= W <= 12) by (unfold W; lra).
      assert (B : 10 <= (v1 * 10 + (v2 * 10 + (v3 * 20 + 0))) / W <= 20).
      { assert (10 * W <= v1 * 10 + (v2 * 10 + (v3 * 20 + 0)) <= 20 * W) by (unfold W; lra). clearbody W. set (N := v1 * 10 + _) in *. clearbody N. split; apply (Rmult_le_reg_r W); try lra; unfold Rdiv; rewrite Rmult_assoc, Rinv_l by lra; lra. }
      rewrite Rabs_right; lra.
    - rewrite ex_columns. unfold radial_cards, items_in_range. cbn [column_cards map app fst snd total length seq]. unfold boundaries, heights, strengths. cbn [map app fst snd last total].
      repeat match goal with |- Forall _ (_ :: _) => apply Forall_cons | |- Forall _ [] => apply Forall_nil end; cbv beta iota.
      all: match goal with |- True => exact I | _ => idtac end.
      all: match goal with |- (_ < _)%Z => reflexivity | _ => apply moderate end.
      all: first [left; lra | right; rewrite Rabs_right by lra; lra | right; rewrite Rabs_left by lra; lra | idtac ].
      + destruct D1 as [->|D1]; [now left|]. right. rewrite Rabs_right by lra. lra.
      + destruct D2 as [->|D2]; [now left|]. right. rewrite Rabs_right by lra. lra. }
  unfold ex_strength. intros [<-|[<-|[<-|[<-|[]]]]] Hn; try (apply G; [reflexivity|lra..]). all: try discriminate Hn.
Qed.
Lemma ex_citation_proper : proper_citation ex_citation.
Proof. repeat split; try discriminate; cbn; repeat constructor. Qed.
Example ex_files : exists files w, write_mcnp_sdef_source tt_shipped ex_citation (txt "out") ex_r ex_z 1 ex_temps ex_strength = (files, Ok w) /\ length files = 3%nat /\
  Forall2 (holds_channel tt_shipped (txt "out") ex_r ex_z 1 ex_temps) (filter (fun channel => neutronic (fst channel)) ex_strength) files.
Proof.
  destruct (C67_file_contents tt_shipped ex_citation (txt "out") ex_r ex_z 1 ex_temps ex_strength ex_citation_proper) as (files & w & E & F);
    [discriminate|cbn; lra|reflexivity|reflexivity|exact ex_writable|]. exists files, w. split; [exact E|]. split; [|exact F]. apply Forall2_length in F. rewrite <- F. reflexivity.
Qed.
(** In that file the cells are contiguous, so the sampled regions of the D-T file are the three cells (in cm) with probabilities 1/6, 1/3 and 1/2. *)
Example ex_emission : exists file em, emission (read_deck (snd file)) = Some em /\ fst file = txt "out.DT" /\
  Forall2 close_region em [((50, 150), (-50, 50), 1 / 6); ((50, 150), (50, 150), 2 / 6); ((150, 250), (-50, 50), 3 / 6)].
Proof.
  destruct ex_files as (files & w & _ & _ & F). cbn [ex_strength filter fst neutronic neutrons Nat.eqb negb] in F. inversion F as [|? file ? ? Hf _]; subst.
  destruct (C59_sampled_regions_are_cells tt_shipped (txt "out") ex_r ex_z 1 ex_temps DT [1; 2; 3] file) as (em & Ee & Fe); try reflexivity.
  - repeat constructor; lra.
  - rewrite ex_columns. cbn. lra.
  - rewrite ex_columns. repeat constructor; cbn; lra.
  - exact Hf.
  - exists file, em. split; [exact Ee|]. split; [destruct Hf as [Hn _]; exact Hn|].
    assert (Q : map (cell_region 1 (total [1; 2; 3])) (combine (combine ex_r ex_z) [1; 2; 3]) = [((50, 150), (-50, 50), 1 / 6); ((50, 150), (50, 150), 2 / 6); ((150, 250), (-50, 50), 3 / 6)]).
    { unfold cell_region, ex_r, ex_z. cbn [combine map total]. repeat (f_equal; try lra). }
    unfold region in *. rewrite Q in Fe. exact Fe.
Qed.

(** A D-T channel without strength: the file is written, with a temperature that is no number. *)
Theorem C62_zero_strength_nan_refuted : forall d cit stub r z h temps n file, length temps = n -> 
  In file (fst (write_mcnp_sdef_source d cit stub r z h temps [(DT, repeat 0 n)])) ->
  In (txt "SP2 -4   nan -1") (lines (snd file)) /\ read_number (txt "nan") = None.
Proof.
  intros d cit stub r z h temps n file L H. split; [|reflexivity]. apply files_written in H. destruct H as (reac & v & w & Hin & _ & _ & Hc).
  destruct Hin as [Hin|[]]. injection Hin as <- <-. unfold file_content, sdef_header in Hc.
  destruct (C62_finite_iff_strength (repeat 0 n) temps) as [_ H]; [now rewrite repeat_length|].
  rewrite H in Hc.
  - cbn [bind energy_cards f_map fst snd] in Hc. repeat match type of Hc with (do _ <- ?x; _) = _ => destruct x; cbn [bind] in Hc; try discriminate end.
    match type of Hc with Ok (?x, _) = _ => assert (Et : snd file = x) by congruence; rewrite Et; clear Hc Et end.
    do 29 apply lines_skip_in. apply lines_head_in. exact (no_nl_txt "SP2 -4   nan -1" eq_refl).
  - clear. induction n; constructor; [lra|assumption].
  - clear. induction n as [|n IH]; cbn; [reflexivity|]. rewrite IH. ring.
Qed.
Print Assumptions C62_zero_strength_nan_refuted.
