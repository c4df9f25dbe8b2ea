(** C81, C82: finding the data files and reading their names. *)
From Coq Require Import Ascii String List Bool Arith Lia Lra.
From Verif Require Import Base Reactions SpecReactions TextWrap XsData Reactivity SpecReactivity ReactivityProofs P_Reactivity Paths SpecPaths PathsProofs.
Local Open Scope nat_scope.

(** The package folder is called tokamak_neutron_source and is in the folder with the names [root]; [above] is the path of that folder as text. *)
Definition installed (package above : text) (root : list text) : Prop :=
  package = above ++ str "/tokamak_neutron_source" /\ absolute package /\ spells package (root ++ [str "tokamak_neutron_source"]).

Lemma no_slash : ~ In slash (txt "tokamak_neutron_source").
Proof. intro H. cbn in H. repeat (destruct H as [H|H]; [discriminate H|]). exact H. Qed.
Lemma installed_root package above root : installed package above root ->
  Path (get_tns_root package) = from_root root /\ (contains (txt "egg") (get_tns_root package) = true <-> occurs (str "egg") above).
Proof.
  intros (-> & A & S). change (above ++ str "/tokamak_neutron_source") with (above ++ slash :: txt "tokamak_neutron_source") in *. split.
  - apply root_names; [exact no_slash|exact A|exact S|discriminate|discriminate].
  - apply root_egg, no_slash.
Qed.

(** get_tns_path(path, subfolder) is the folder root/subfolder/path, if it and root/subfolder exist; otherwise it raises ValueError.
    The path above the package must not contain egg (see C81_egg_refuted). *)
Theorem C81_location : forall is_dir package above root path sub names subnames, installed package above root -> ~ occurs (str "egg") above ->
  relative path -> spells path names -> relative sub -> spells sub subnames ->
  get_tns_path is_dir package path sub =
    if is_dir (from_root (root ++ subnames)) && is_dir (from_root (root ++ subnames ++ names)) then Ok (from_root (root ++ subnames ++ names)) else Err EValue.
Proof.
  intros is_dir package above root path sub names subnames I E Rp Sp Rs Ss. destruct (installed_root _ _ _ I) as [Er Ee]. unfold get_tns_path, get_relpath.
  destruct (contains (txt "egg") (get_tns_root package)) eqn:C; [destruct E; now apply Ee|]. rewrite Er, Path2_relative by exact Rs. rewrite (spells_pieces _ _ Ss). cbn [from_root fst snd].
  change ([sep], root ++ subnames) with (from_root (root ++ subnames)). destruct (is_dir (from_root (root ++ subnames))); [|reflexivity]. cbn [bind andb].
  rewrite Path2_relative by exact Rp. rewrite (spells_pieces _ _ Sp). cbn [from_root fst snd]. rewrite <- app_assoc. reflexivity.
Qed.
Print Assumptions C81_location.

(** A folder inside the package. *)
Definition inside (package_names : list text) (l : list string) : list ascii * list text := from_root (package_names ++ map str l).
Lemma spells_one name : name <> [] -> name <> ["."%char] -> ~ In sep name -> spells name [name].
Proof. intros. rewrite <- (app_nil_r name) at 1. apply spells_name; auto; [now left|constructor]. Qed.
Lemma spells_tns : spells (txt "tokamak_neutron_source") [str "tokamak_neutron_source"].
Proof. apply spells_one; [discriminate|discriminate|exact no_slash]. Qed.
Lemma spells_sub a b : a <> [] -> a <> ["."%char] -> ~ In sep a -> b <> [] -> b <> ["."%char] -> ~ In sep b -> spells (a ++ sep :: b) [a; b].
Proof. intros. apply spells_name; auto; [right; eauto|]. constructor. now apply spells_one. Qed.
Ltac nosep := let H := fresh in intro H; cbn in H; repeat (destruct H as [H|H]; [discriminate H|]); exact H.
Lemma data_folder is_dir package above root path names : installed package above root -> ~ occurs (str "egg") above -> relative path -> spells path names ->
  get_tns_path is_dir package path tns_folder =
    if is_dir (inside (root ++ [str "tokamak_neutron_source"]) []) && is_dir (from_root ((root ++ [str "tokamak_neutron_source"]) ++ names)) then Ok (from_root ((root ++ [str "tokamak_neutron_source"]) ++ names)) else Err EValue.
Proof.
  intros I E Rp Sp. rewrite (C81_location is_dir package above root path tns_folder names [str "tokamak_neutron_source"]); try assumption; [|discriminate|exact spells_tns].
  unfold inside. cbn [map]. now rewrite app_nil_r, <- app_assoc.
Qed.

(** Where the data files are looked for: in the folders data/cross_sections and data/spectra of the package. With the folders in place a missing file raises
    ReactivityError or EnergySpectrumError, and nothing else is raised for a file that is there. *)
Theorem C81_data_files : forall is_dir is_file package above root file name, installed package above root -> ~ occurs (str "egg") above ->
  is_dir (inside (root ++ [str "tokamak_neutron_source"]) []) = true ->
  relative file -> spells file [name] ->
  (is_dir (inside (root ++ [str "tokamak_neutron_source"]) ["data"; "cross_sections"]%string) = true ->
     let p := from_root ((root ++ map str ["tokamak_neutron_source"; "data"; "cross_sections"]%string) ++ [name]) in
     cross_section_path is_dir is_file package file = if is_file p then Ok p else Err EReactivity) /\
  (is_dir (inside (root ++ [str "tokamak_neutron_source"]) ["data"; "spectra"]%string) = true ->
     let p := from_root ((root ++ map str ["tokamak_neutron_source"; "data"; "spectra"]%string) ++ [name]) in
     spectrum_path is_dir is_file package file = if is_file p then Ok p else Err EEnergySpectrum) /\
  (is_dir (inside (root ++ [str "tokamak_neutron_source"]) ["data"]%string) = true ->
     citation_path is_dir package = Ok (from_root (root ++ map str ["tokamak_neutron_source"; "data"; "CITATION.cff"]%string))).
Proof.
  intros is_dir is_file package above root file name I E D0 Rf Sf.
  assert (Q : forall (b : bool) (p : ppath), (if true && b then Ok p else Err EValue) = (if b then Ok p else Err EValue)) by reflexivity.
  split; [|split]; intro D.
  - unfold cross_section_path. rewrite (data_folder is_dir package above root _ (map str ["data"; "cross_sections"]%string) I E); [|discriminate|apply (spells_sub (str "data") (str "cross_sections")); try discriminate; nosep].
    rewrite D0. unfold inside in D. rewrite D. cbn [andb bind]. rewrite Path2_relative by exact Rf. rewrite (spells_pieces _ _ Sf). cbn [from_root fst snd].
    rewrite <- (app_assoc root). reflexivity.
  - unfold spectrum_path. rewrite (data_folder is_dir package above root _ (map str ["data"; "spectra"]%string) I E); [|discriminate|apply (spells_sub (str "data") (str "spectra")); try discriminate; nosep].
    rewrite D0. unfold inside in D. rewrite D. cbn [andb bind]. rewrite Path2_relative by exact Rf. rewrite (spells_pieces _ _ Sf). cbn [from_root fst snd].
    rewrite <- (app_assoc root). reflexivity.
  - unfold citation_path. rewrite (data_folder is_dir package above root _ (map str ["data"]%string) I E); [|discriminate|].
    2:{ apply spells_one; [discriminate|discriminate|nosep]. }
    rewrite D0. unfold inside in D. rewrite D. cbn [andb bind]. rewrite Path2_relative by discriminate. unfold from_root. cbn [fst snd]. rewrite <- !app_assoc. reflexivity.
Qed.
Print Assumptions C81_data_files.

(** An installation whose path contains egg above the package (as in /home/reggie or in a Python egg): the requested path is dropped and nothing is checked, so the library looks
    for its data files in a folder /tokamak_neutron_source, and cannot be imported unless the file is there. *)
Theorem C81_egg_refuted : forall is_dir is_file lines package above root m u, installed package above root -> occurs (str "egg") above ->
  (forall path sub names, relative sub -> spells sub names -> get_tns_path is_dir package path sub = Ok (from_root names)) /\
  (is_file (from_root (map str ["tokamak_neutron_source"; "T_T_He_2n.txt"]%string)) = false ->
     import_data is_dir is_file package lines m u = Err EReactivity).
Proof.
  intros is_dir is_file lines package above root m u I E. destruct (installed_root _ _ _ I) as [_ Ee]. apply Ee in E.
  assert (G : forall path sub, relative sub -> get_tns_path is_dir package path sub = Ok (from_root (pieces sub))).
  { intros path sub Rs. unfold get_tns_path. rewrite E. unfold Path, from_root. rewrite pieces_slash, path_root_absolute; [reflexivity|]. exists sub. split; [reflexivity|]. left. exact Rs. }
  split; [intros path sub names Rs Ss; rewrite <- (spells_pieces _ _ Ss); now apply G|]. intro F. unfold import_data, data_files. cbn [mapM snd]. unfold reaction_cross_section at 1, cross_section_path. rewrite G by discriminate. cbn [bind].
  match goal with |- context [is_file ?p] => change p with (from_root (map str ["tokamak_neutron_source"; "T_T_He_2n.txt"]%string)) end. rewrite F. reflexivity.
Qed.
Print Assumptions C81_egg_refuted.

Lemma reggie_installed : installed (str "/home/reggie/tokamak_neutron_source") (str "/home/reggie") [str "home"; str "reggie"].
Proof.
  split; [reflexivity|]. split; [eexists; split; [reflexivity|left; discriminate]|]. constructor.
  apply (spells_name (str "home") (str "/reggie/tokamak_neutron_source")); [discriminate|discriminate|nosep|right; eexists; reflexivity|]. constructor.
  apply (spells_name (str "reggie") (str "/tokamak_neutron_source")); [discriminate|discriminate|nosep|right; eexists; reflexivity|]. constructor.
  apply (spells_name (str "tokamak_neutron_source") []); [discriminate|discriminate|nosep|now left|constructor].
Qed.
Example C81_egg_example : exists package above root, installed package above root /\ occurs (str "egg") above.
Proof. do 3 eexists. split; [exact reggie_installed|]. exists (str "/home/r"), (str "ie"). reflexivity. Qed.
Lemma opt_installed : installed (str "/opt/tokamak_neutron_source") (str "/opt") [str "opt"].
Proof.
  split; [reflexivity|]. split; [eexists; split; [reflexivity|left; discriminate]|]. constructor.
  apply (spells_name (str "opt") (str "/tokamak_neutron_source")); [discriminate|discriminate|nosep|right; eexists; reflexivity|]. constructor.
  apply (spells_name (str "tokamak_neutron_source") []); [discriminate|discriminate|nosep|now left|constructor].
Qed.
Lemma opt_no_egg : ~ occurs (str "egg") (str "/opt").
Proof. intro H. apply contains_spec in H. discriminate H. Qed.
Example C81_example : cross_section_path (fun _ => true) (fun _ => true) (str "/opt/tokamak_neutron_source") (str "D_T_He_n.txt") =
  Ok (from_root (map str ["opt"; "tokamak_neutron_source"; "data"; "cross_sections"; "D_T_He_n.txt"]%string)).
Proof.
  destruct (C81_data_files (fun _ => true) (fun _ => true) _ _ _ (str "D_T_He_n.txt") (str "D_T_He_n.txt") opt_installed opt_no_egg eq_refl) as [H _]; [discriminate| |now apply H].
  apply spells_one; [discriminate|discriminate|nosep].
Qed.

(** A path from the root of the file system is taken as it is, also by the readers of data files, although the result is documented as a path in the
    subfolder: a spectrum is then read from outside the package. A cross section is not: its species would begin with the slash. *)
Lemma Path2_absolute p t names : absolute t -> spells t names -> Path2 p t = from_root names.
Proof.
  intros A S. pose proof (path_root_absolute t A) as Er. destruct A as (u & -> & H). cbn [Path2]. change (is_slash sep) with true. cbv iota. unfold Path. rewrite Er, (spells_pieces _ _ S). reflexivity.
Qed.
Lemma split_at_hd s cur t c r : cur = c :: r -> exists r' l, split_at s cur t = (c :: r') :: l.
Proof.
  revert cur r. induction t as [|d t IH]; intros cur r ->; cbn [split_at]; [eauto|]. destruct (Ascii.eqb d s); [eauto|]. apply (IH _ (r ++ [d])). reflexivity.
Qed.
Theorem C81_absolute_refuted : forall is_dir is_file package above root path names, installed package above root -> ~ occurs (str "egg") above ->
  absolute path -> spells path names -> is_dir (inside (root ++ [str "tokamak_neutron_source"]) []) = true ->
  get_tns_path is_dir package path tns_folder = (if is_dir (from_root names) then Ok (from_root names) else Err EValue) /\
  (is_dir (inside (root ++ [str "tokamak_neutron_source"]) ["data"; "spectra"]%string) = true ->
     spectrum_path is_dir is_file package path = if is_file (from_root names) then Ok (from_root names) else Err EEnergySpectrum) /\
  (is_dir (inside (root ++ [str "tokamak_neutron_source"]) ["data"; "cross_sections"]%string) = true -> is_file (from_root names) = true ->
     cross_section_path is_dir is_file package path = Ok (from_root names) /\
     forall lines m u nx, reaction_cross_section is_dir is_file package lines m u path <> Ok nx).
Proof.
  intros is_dir is_file package above root path names I E A S D0. split; [|split].
  - destruct (installed_root _ _ _ I) as [Er Ee]. unfold get_tns_path, get_relpath. destruct (contains (txt "egg") (get_tns_root package)) eqn:C; [destruct E; now apply Ee|].
    rewrite Er, Path2_relative by discriminate. change tns_folder with (txt "tokamak_neutron_source"). rewrite (spells_pieces (txt "tokamak_neutron_source") [str "tokamak_neutron_source"] spells_tns). unfold inside in D0. cbn [map] in D0. rewrite app_nil_r in D0. cbn [from_root fst snd]. change ([sep], root ++ [str "tokamak_neutron_source"]) with (from_root (root ++ [str "tokamak_neutron_source"])). rewrite D0. cbn [bind].
    rewrite (Path2_absolute _ _ _ A S). reflexivity.
  - intro D. unfold spectrum_path. rewrite (data_folder is_dir package above root _ (map str ["data"; "spectra"]%string) I E); [|discriminate|apply (spells_sub (str "data") (str "spectra")); try discriminate; nosep].
    rewrite D0. unfold inside in D. rewrite D. cbn [andb bind]. rewrite (Path2_absolute _ _ _ A S). reflexivity.
  - intros D F. assert (Ec : cross_section_path is_dir is_file package path = Ok (from_root names)).
    { unfold cross_section_path. rewrite (data_folder is_dir package above root _ (map str ["data"; "cross_sections"]%string) I E); [|discriminate|apply (spells_sub (str "data") (str "cross_sections")); try discriminate; nosep].
      rewrite D0. unfold inside in D. rewrite D. cbn [andb bind]. rewrite (Path2_absolute _ _ _ A S), F. reflexivity. }
    split; [exact Ec|]. intros lines m u nx. unfold reaction_cross_section. rewrite Ec. cbn [bind]. destruct (genfromtxt _ 2) as [rows|e|]; cbn [bind]; try discriminate.
    destruct A as (v & -> & _). unfold name_pieces. destruct (split_at_hd "." [sep] v sep [] eq_refl) as (r1 & l1 & E1). change (split_at "." [] (sep :: v)) with (split_at "." [sep] v). rewrite E1. cbn [hd].
    destruct (split_at_hd "_" [sep] r1 sep [] eq_refl) as (r2 & l2 & E2). change (split_at "_" [] (sep :: r1)) with (split_at "_" [sep] r1). rewrite E2. destruct l2 as [|t [|p1 [|p2 more]]]; try discriminate.
Qed.
Print Assumptions C81_absolute_refuted.
Example C81_absolute_example : absolute (str "/home/me/T_T_spectra.txt") /\ spells (str "/home/me/T_T_spectra.txt") (map str ["home"; "me"; "T_T_spectra.txt"]%string) /\
  spectrum_path (fun _ => true) (fun _ => true) (str "/opt/tokamak_neutron_source") (str "/home/me/T_T_spectra.txt") = Ok (from_root (map str ["home"; "me"; "T_T_spectra.txt"]%string)).
Proof.
  assert (S : spells (str "/home/me/T_T_spectra.txt") (map str ["home"; "me"; "T_T_spectra.txt"]%string)).
  { apply (spells_slash (str "home/me/T_T_spectra.txt")). apply (spells_name (str "home") (str "/me/T_T_spectra.txt")); [discriminate|discriminate|nosep|right; eexists; reflexivity|].
    apply (spells_slash (str "me/T_T_spectra.txt")). apply (spells_sub (str "me") (str "T_T_spectra.txt")); try discriminate; nosep. }
  split; [exists (str "home/me/T_T_spectra.txt"); split; [reflexivity|left; discriminate]|]. split; [exact S|]. reflexivity.
Qed.

(** ** C82 *)

(** What the species in a file name mean. *)
Definition species : list (string * nuclide) := [ ("D", nD); ("T", nT); ("He", nHe4); ("He3", nHe3); ("n", nN); ("p", nP) ]%string.
(** Mass of an atom of the species (of the particle for neutron and proton). *)
Definition nuclide_mass (m : masses) (x : nuclide) : R :=
  match x with nD => mD m | nT => mT m | nHe4 => mHe m | nHe3 => mHe3 m | nN => mn m | nP => mp m end.
Definition good_piece (p : text) : Prop := ~ In "_"%char p /\ ~ In "."%char p.

Lemma underscored_no_dot l : (forall p, In p l -> good_piece p) -> ~ In "."%char (underscored l).
Proof.
  induction l as [|p l IH]; [intros _ []|]. intros H Hi. destruct l as [|q l].
  - cbn in Hi. exact (proj2 (H p (or_introl eq_refl)) Hi).
  - change (underscored (p :: q :: l)) with (p ++ "_"%char :: underscored (q :: l)) in Hi. apply in_app_or in Hi. destruct Hi as [Hi|[Hi|Hi]].
    + exact (proj2 (H p (or_introl eq_refl)) Hi).
    + discriminate Hi.
    + apply IH in Hi; [exact Hi|]. intros; apply H; now right.
Qed.
Lemma name_pieces_of l e : l <> [] -> (forall p, In p l -> good_piece p) -> (e = [] \/ exists t, e = "."%char :: t) -> name_pieces (underscored l ++ e) = l.
Proof.
  intros Hl H He. unfold name_pieces. rewrite split_extension; [|now apply underscored_no_dot|exact He]. apply split_underscored; [exact Hl|]. intros p Hp. apply H, Hp.
Qed.

(** A data file called A_B_C_D.ext (more pieces may follow): the table is used for A hitting B, with the masses of A and B. *)
Theorem C82_file_name : forall is_dir is_file package lines m u path a b c d more ext x y,
  (forall p, In p (a :: b :: c :: d :: more) -> good_piece p) -> (ext = [] \/ exists t, ext = "."%char :: t) ->
  In (a, x) (map (fun s => (str (fst s), snd s)) species) -> In (b, y) (map (fun s => (str (fst s), snd s)) species) ->
  let file := underscored (a :: b :: c :: d :: more) ++ ext in
  cross_section_path is_dir is_file package file = Ok path ->
  reaction_cross_section is_dir is_file package lines m u file =
    do xs <- make_xs u (lines path) (nuclide_mass m x) (nuclide_mass m y); Ok (a ++ str " + " ++ b ++ str " -> " ++ c ++ str " + " ++ d, xs).
Proof.
  intros is_dir is_file package lines m u path a b c d more ext x y Hp He Ha Hb file Ep. unfold reaction_cross_section. rewrite Ep. cbn [bind]. unfold file. rewrite name_pieces_of by (auto; discriminate).
  assert (M : forall t z, In (t, z) (map (fun s => (str (fst s), snd s)) species) -> molar_mass m t = Ok (nuclide_mass m z)).
  { intros t z H. cbn in H. repeat (destruct H as [H|H]; [injection H as <- <-; reflexivity|]). destruct H. }
  rewrite (M a x Ha), (M b y Hb). cbn [bind]. unfold make_xs. destruct (genfromtxt (lines path) 2) as [rows|e|]; reflexivity.
Qed.
Print Assumptions C82_file_name.

(** Other file names: fewer than two pieces raise ValueError, fewer than four IndexError, an unknown species KeyError. *)
Theorem C82_bad_file_name : forall is_dir is_file package lines m u path rows l ext,
  l <> [] -> (forall p, In p l -> good_piece p) -> (ext = [] \/ exists t, ext = "."%char :: t) ->
  cross_section_path is_dir is_file package (underscored l ++ ext) = Ok path -> genfromtxt (lines path) 2 = Ok rows ->
  let r := reaction_cross_section is_dir is_file package lines m u (underscored l ++ ext) in
  (length l < 2 -> r = Err EValue) /\ (2 <= length l < 4 -> r = Err EIndex) /\
  (4 <= length l -> (exists p, In p (firstn 2 l) /\ ~ In p (map str ["D"; "T"; "He"; "He3"; "n"; "p"; "e"]%string)) -> r = Err EKey).
Proof.
  intros is_dir is_file package lines m u path rows l ext Hl Hp He Ep Eg. cbv zeta. unfold reaction_cross_section. rewrite Ep. cbn [bind]. rewrite Eg. cbn [bind]. rewrite name_pieces_of by assumption.
  assert (K : forall t, ~ In t (map str ["D"; "T"; "He"; "He3"; "n"; "p"; "e"]%string) -> molar_mass m t = Err EKey).
  { intros t H. unfold molar_mass. cbn [map In] in H. rewrite !text_eqb_neq; [reflexivity|..]; intros ->; apply H; auto 10. }
  destruct l as [|a [|b [|c [|d more]]]]; [contradiction|..]; (split; [|split]); cbn [length]; intro HL; try lia; try reflexivity.
  intros (p & [<-|[<-|[]]] & Hn).
  - rewrite (K _ Hn). reflexivity.
  - rewrite (K _ Hn). destruct (molar_mass m a) as [v|e|] eqn:Em; [reflexivity| |].
    + unfold molar_mass in Em. repeat (destruct (text_eqb _ _) in Em; [discriminate Em|]). injection Em as <-. reflexivity.
    + unfold molar_mass in Em. repeat (destruct (text_eqb _ _) in Em; [discriminate Em|]). discriminate Em.
Qed.
Print Assumptions C82_bad_file_name.

(** Every channel has one data file, whose name says the same as the channel's label: the same two reactants, and among the products the heavier one. *)
Definition shipped_pieces (r : reaction) : list string :=
  match r with
  | DT => ["D"; "T"; "He"; "n"] | DDn => ["D"; "D"; "He3"; "n"] | DDp => ["D"; "D"; "T"; "p"] | TT => ["T"; "T"; "He"; "2n"] | DHe3 => ["D"; "He3"; "He"; "p"]
  end%string.
Definition meaning (w : string) : list nuclide :=
  if string_dec w "2n" then [nN; nN] else match find (fun s => if string_dec (fst s) w then true else false) species with Some s => [snd s] | None => [] end.
Theorem C82_labels : forall r, exists l, l = shipped_pieces r /\ In (r, underscored (map str l) ++ str ".txt") data_files /\
  equation (label r) = Some (flat_map meaning (firstn 2 l), flat_map meaning (skipn 2 l)) /\
  (forall f, In (r, f) data_files -> f = underscored (map str l) ++ str ".txt").
Proof.
  intro r. exists (shipped_pieces r). split; [reflexivity|].
  destruct r; (split; [cbn; auto 10|split; [reflexivity|]]); intros f H; cbn in H; repeat (destruct H as [H|H]; [try discriminate H; injection H as <-; reflexivity|]); destruct H.
Qed.
Print Assumptions C82_labels.

Definition shipped_lines (r : reaction) : list line := match r with DT => lines_DT | DDn => lines_DDn | DDp => lines_DDp | TT => lines_TT | DHe3 => lines_DHe3 end.
(** With the shipped files in the package, importing the library succeeds and every channel gets the cross section that the reactivity model uses (C16). *)
Theorem C82_import : forall is_dir is_file package above root lines m u, installed package above root -> ~ occurs (str "egg") above ->
  let data := root ++ map str ["tokamak_neutron_source"; "data"]%string in
  is_dir (from_root (root ++ [str "tokamak_neutron_source"])) = true ->
  is_dir (from_root (data ++ [str "cross_sections"])) = true -> is_dir (from_root (data ++ [str "spectra"])) = true ->
  (forall r f, In (r, f) data_files -> is_file (from_root (data ++ [str "cross_sections"; f])) = true /\ lines (from_root (data ++ [str "cross_sections"; f])) = shipped_lines r) ->
  is_file (from_root (data ++ map str ["spectra"; "T_T_spectra.txt"]%string)) = true ->
  physical_masses m -> (0 < amu_kg u)%R ->
  exists xs, import_data is_dir is_file package lines m u = Ok xs /\ (forall r x, In (r, x) xs -> cross_section m u r = Ok x) /\ forall r, exists x, In (r, x) xs.
Proof.
  intros is_dir is_file package above root lines m u I E data D0 D1 D2 F1 F2 Pm Pu. unfold data in *. clear data.
  assert (D0' : is_dir (inside (root ++ [str "tokamak_neutron_source"]) []) = true) by (unfold inside; cbn [map]; now rewrite app_nil_r).
  assert (C : forall r f, In (r, f) data_files ->
    cross_section_path is_dir is_file package f = Ok (from_root ((root ++ map str ["tokamak_neutron_source"; "data"]%string) ++ [str "cross_sections"; f]))).
  { intros r f H. destruct (F1 r f H) as [Hf _].
    assert (S : relative f /\ spells f [f]).
    { cbn in H. repeat (destruct H as [H|H]; [injection H as _ <-; split; [discriminate|apply spells_one; [discriminate|discriminate|nosep]]|]). destruct H. }
    destruct (C81_data_files is_dir is_file package above root f f I E D0' (proj1 S) (proj2 S)) as [X _]. rewrite X.
    - cbv zeta. match goal with |- (if is_file (from_root ?x) then _ else _) = _ => replace x with ((root ++ map str ["tokamak_neutron_source"; "data"]%string) ++ [str "cross_sections"; f]) by (now rewrite <- !app_assoc) end. now rewrite Hf.
    - unfold inside. rewrite <- app_assoc in D1 |- *. exact D1. }
  assert (X : forall r f, In (r, f) data_files -> exists n x, reaction_cross_section is_dir is_file package lines m u f = Ok (n, x) /\ cross_section m u r = Ok x).
  { intros r f H. destruct (F1 r f H) as [_ Hl]. pose proof (C r f H) as Cp. destruct (cross_section_ok m u r Pm Pu) as (x & Ex & _).
    destruct (C82_labels r) as (l & El & _ & _ & Uf). rewrite (Uf f H) in Cp, Hl |- *. clear Uf.
    subst l. destruct r; (eexists _, x; split; [|exact Ex]); cbn [shipped_pieces map] in Cp, Hl |- *;
      match type of Cp with cross_section_path _ _ _ (underscored [str ?a; str ?b; str ?c; str ?d] ++ _) = Ok ?p =>
        let x := (eval cbv in (hd nD (meaning a))) in let y := (eval cbv in (hd nD (meaning b))) in
        eapply eq_trans; [eapply (C82_file_name is_dir is_file package lines m u p (str a) (str b) (str c) (str d) [] (str ".txt") x y); [| | | |exact Cp]|]
      end.
    all: try (cbn; tauto).
    all: try (right; eexists; reflexivity).
    all: try (intros p Hp; cbn [In] in Hp; repeat (destruct Hp as [<-|Hp]; [split; nosep|]); destruct Hp).
    all: cbv zeta; rewrite Hl; cbn [shipped_lines nuclide_mass]; cbn [cross_section] in Ex; rewrite Ex; reflexivity. }
  assert (G : exists xs, mapM (fun f => do nx <- reaction_cross_section is_dir is_file package lines m u (snd f); Ok (fst f, snd nx)) data_files = Ok xs /\
     Forall2 (fun f y => fst f = fst y /\ cross_section m u (fst y) = Ok (snd y)) data_files xs).
  { revert X. generalize data_files as fs. induction fs as [|[r f] fs IH]; intro X; [exists []; split; [reflexivity|constructor]|].
    destruct (X r f (or_introl eq_refl)) as (n & x & E1 & E2). destruct IH as (xs & E3 & E4); [intros; apply X; now right|].
    exists ((r, x) :: xs). cbn [mapM fst snd]. rewrite E1. cbn [bind snd]. rewrite E3. cbn [bind]. split; [reflexivity|]. constructor; [now split|exact E4]. }
  destruct G as (xs & Em & F). exists xs. split; [|split].
  - unfold import_data. rewrite Em. cbn [bind].
    destruct (C81_data_files is_dir is_file package above root (txt "T_T_spectra.txt") (txt "T_T_spectra.txt") I E D0') as (_ & X2 & _); [discriminate|apply spells_one; [discriminate|discriminate|nosep]|].
    rewrite X2.
    + cbv zeta. match goal with |- context [is_file (from_root ?x)] => replace x with ((root ++ map str ["tokamak_neutron_source"; "data"]%string) ++ map str ["spectra"; "T_T_spectra.txt"]%string) by (now rewrite <- !app_assoc) end. now rewrite F2.
    + unfold inside. rewrite <- app_assoc in D2 |- *. exact D2.
  - intros r x H. revert F H. generalize data_files as fs. clear. intros fs F. induction F as [|f y fs xs [Ef Ey] F IH]; [intros []|]. intros [->|H]; [exact Ey|exact (IH H)].
  - intro r. assert (Hr : exists f, In (r, f) data_files) by (destruct (C82_labels r) as (l & _ & H & _); eauto). destruct Hr as (f & Hf). revert F Hf. generalize data_files as fs. clear. intros fs F. induction F as [|g y fs xs [Ef Ey] F IH]; [intros []|].
    intros [->|H]; [cbn in Ef; subst r; exists (snd y); left; now destruct y|]. destruct (IH H) as (x & Hx). exists x. now right.
Qed.
Print Assumptions C82_import.

(** A file system with the package in /opt. *)
Definition opt_lines (p : ppath) : list line :=
  match find (fun rf => text_eqb (snd rf) (last (snd p) [])) data_files with Some rf => shipped_lines (fst rf) | None => [] end.
Example C82_example : exists xs x, import_data (fun _ => true) (fun _ => true) (str "/opt/tokamak_neutron_source") opt_lines nominal_masses nominal_units = Ok xs /\ In (DT, x) xs.
Proof.
  destruct (C82_import (fun _ => true) (fun _ => true) _ _ _ opt_lines nominal_masses nominal_units opt_installed opt_no_egg eq_refl eq_refl eq_refl) as (xs & E & _ & H).
  - intros r f Hf. split; [reflexivity|]. cbn in Hf. repeat (destruct Hf as [Hf|Hf]; [injection Hf as <- <-; reflexivity|]). destruct Hf.
  - reflexivity.
  - unfold physical_masses; cbn [nominal_masses mD mT mHe3]; lra.
  - cbn [nominal_units amu_kg]; lra.
  - destruct (H DT) as (x & Hx). exists xs, x. now split.
Qed.
