(** C104: SDEF files in binary64. *)
From Coq Require Import Ascii String List Bool Arith ZArith Reals Lia Lra Permutation Sorted.
From Flocq Require Import Core.Core IEEE754.BinarySingleNaN.
From Verif Require Import Base Reactions SpecReactions Space Source SpecSource SourceProofs OpenMCProofs SpectraData Energy TextWrap SpecText TextProofs Format SpecFormat FormatProofs P_Text P_Energy Mcnp SpecMcnp McnpProofs P_Mcnp
  FloatComp FloatCompProofs FloatCompAcc FloatSource SpecFloatSource FloatSourceProofs P_FloatSource FloatSpace SpecFloatSpace FloatSpaceProofs P_FloatSpace FloatReactivityProofs FloatMcnp SpecFloatMcnp FloatMcnpProofs FloatMcnpFileProofs FloatMcnpNumProofs FloatMcnpDeckProofs FloatMcnpChannelProofs.
Import ListNotations.
Open Scope R_scope.
Local Notation bp := (bpow radix2).
Local Notation total := SpecSource.total.

(** Every neutronic channel gets a file with exactly the expected cards: the right columns, bins within 5 parts in 10^6 (and a relative
    10^-12 of the size of the cell's coordinates), the strengths themselves, and totals and temperatures right to six digits. *)
Theorem C104_file_contents : forall cm MeV npsum table cit stub r z h temps st,
  factor_ok cm 100 -> factor_ok MeV (/ 1000) -> (forall l, sums l (npsum l)) -> table_ok table ->
  proper_citation cit -> grid_ok r z h -> temps_ok temps -> length temps = length r ->
  (forall channel, In channel st -> neutronic (fst channel) = true -> channel_ok r channel) ->
  exists files, write_mcnp_sdef_source64 cm MeV npsum table cit stub r z h temps st = (files, Ok tt) /\
    Forall2 (holds_channel64 table stub r z h temps) (filter (fun channel => neutronic (fst channel)) st) files.
Proof.
  intros cm MeV npsum table cit stub r z h temps st Hc Hm Hs Ht Pc G Ft Lt. unfold write_mcnp_sdef_source64. fold (in_cm cm h).
  induction st as [|[reac v] st IH]; intro W; [exists []; split; [reflexivity|constructor]|].
  destruct IH as (files & E & F); [intros; apply W; [now right|assumption]|]. cbn [write_files64 filter fst]. rewrite neutronic_is. destruct (is_neutronic reac) eqn:Hn.
  - destruct (channel_written64 cm MeV npsum table Hc Hm Hs Ht cit stub r z h temps reac v Pc G Ft Lt Hn) as (t & Ec & Hh).
    { apply (W (reac, v)); [now left|cbn [fst]; now rewrite neutronic_is]. }
    rewrite file_name_ok by exact Hn. cbn [bind]. unfold in_cm at 1 2 in Ec. rewrite Ec. cbn [bind]. rewrite E. eexists. split; [reflexivity|]. constructor; [exact Hh|exact F].
  - rewrite E. eexists. split; [reflexivity|]. exact F.
Qed.
Print Assumptions C104_file_contents.

(** The temperature of a channel is the strength-weighted mean to one part in 10^7, hence between the coldest and the hottest cell. *)
Lemma weighted_between lo hi w : forall x, length x = length w -> Forall (fun a => 0 <= a) w -> Forall (fun t => lo <= t <= hi) x ->
  lo * total w <= total (map (fun p => fst p * snd p) (combine w x)) <= hi * total w.
Proof.
  induction w as [|a w IH]; intros [|t x] L Fw Fx; try discriminate; cbn [combine map SpecSource.total fst snd]; [lra|].
  specialize (IH x ltac:(cbn in L; lia) (Forall_inv_tail Fw) (Forall_inv_tail Fx)). pose proof (Forall_inv Fw) as A. pose proof (Forall_inv Fx) as [B C]. cbv beta in A.
  pose proof (Rmult_le_compat_l a _ _ A B). pose proof (Rmult_le_compat_l a _ _ A C). lra.
Qed.
Theorem C104_mean_temperature : forall npsum st temps, (forall l, sums l (npsum l)) ->
  Forall strength_ok st -> temps_ok temps -> length temps = length st -> INR (length st) <= 10 ^ 8 -> 0 < total (map B2R st) ->
  let W := weighted_mean (map B2R st) (map B2R temps) in
  exists T, mean_ion_temp64 npsum st temps = Ok T /\ is_finite T = true /\ Rabs (B2R T - W) <= W / 10 ^ 7 /\
    (forall lo hi, 0 <= lo -> Forall (fun t => lo <= B2R t <= hi) temps -> lo * (1 - / 10 ^ 7) <= B2R T <= hi * (1 + / 10 ^ 7)).
Proof.
  intros npsum st temps Hs Fs Ft L Ln P W. destruct (mean_ok npsum Hs st temps Fs Ft L Ln P) as (T & E & FT & C & B). fold W in C, B.
  assert (In : INR (2 * length st + 2) <= 3 * 10 ^ 8) by (rewrite plus_INR, mult_INR; cbn [INR]; lra).
  pose proof (close_rel _ _ _ In C) as R. exists T. split; [exact E|]. split; [apply FT|]. split; [unfold Rdiv; rewrite Rmult_comm; exact R|]. intros lo hi Hl Fl.
  assert (BW : lo * total (map B2R st) <= W * total (map B2R st) <= hi * total (map B2R st)).
  { unfold W, weighted_mean. unfold Rdiv. rewrite Rmult_assoc, Rinv_l, Rmult_1_r by lra. apply weighted_between.
    - rewrite !map_length. exact L.
    - apply Forall_map. eapply Forall_impl; [|exact Fs]. intros a [U _]. now apply unsigned_nn.
    - apply Forall_map. exact Fl. }
  destruct BW as [B1 B2]. apply Rmult_le_reg_r in B1, B2; try exact P. apply Rabs_le_inv in R. lra.
Qed.
Print Assumptions C104_mean_temperature.

(** The cells that sampling a plasma in binary64 (C95) yields can be written, if none is on the axis. *)
Lemma SS_app {A} (Rel : A -> A -> Prop) l1 l2 : StronglySorted Rel l1 -> StronglySorted Rel l2 -> (forall a b, In a l1 -> In b l2 -> Rel a b) -> StronglySorted Rel (l1 ++ l2).
Proof.
  induction 1 as [|a l1 S1 IH F]; intros S2 X; [exact S2|]. cbn. constructor; [apply IH; [exact S2|intros; apply X; [now right|assumption]]|].
  apply Forall_app. split; [exact F|]. apply Forall_forall. intros b Hb. apply X; [now left|exact Hb].
Qed.
Lemma SS_nth {A} (Rel : A -> A -> Prop) l : (forall i j c d, (i < j)%nat -> nth_error l i = Some c -> nth_error l j = Some d -> Rel c d) -> StronglySorted Rel l.
Proof.
  induction l as [|a l IH]; intro H; [constructor|]. constructor; [apply IH; intros i j c d L Hi Hj; apply (H (S i) (S j)); [lia|exact Hi|exact Hj]|].
  apply Forall_forall. intros b Hb. destruct (In_nth_error _ _ Hb) as [j Hj]. apply (H 0%nat (S j)); [lia|reflexivity|exact Hj].
Qed.
Lemma SS_filter {A} (Rel : A -> A -> Prop) f l : StronglySorted Rel l -> StronglySorted Rel (filter f l).
Proof.
  induction 1 as [|a l S IH F]; [constructor|]. cbn. destruct (f a); [|exact IH]. constructor; [exact IH|]. apply Forall_forall. intros b Hb. apply filter_In in Hb. rewrite Forall_forall in F. now apply F.
Qed.
Lemma grid_spread M coords o h cs : ordinary_axis M coords o h -> on_grid M coords o h cs ->
  (forall c, In c cs -> is_finite c = true /\ Rabs (B2R c) <= 4 * M) /\ StronglySorted (fun c d => B2R c + B2R h / 2 <= B2R d) cs.
Proof.
  intros HA (k & G1 & G2 & _ & G4). destruct (axis_scale M _ _ _ HA) as (_ & PM & [PH HM] & MH & _). destruct HA as (_ & _ & _ & _ & _ & Fc & _). rewrite Forall_forall in Fc.
  assert (B : forall c, In c cs -> is_finite c = true /\ Rabs (B2R c) <= 4 * M).
  { intros c Hc. destruct (In_nth_error _ _ Hc) as [i Hi]. split; [apply (G1 i c Hi)|]. destruct (G4 c Hc) as (a & b & Ia & Ib & L). destruct (Fc a Ia) as [_ Ba]. destruct (Fc b Ib) as [_ Bb]. apply Rabs_le_inv in Ba, Bb. apply Rabs_le. lra. }
  split; [exact B|]. apply SS_nth. intros i j c d L Hi Hj.
  assert (E : exists e, nth_error cs (S i) = Some e). { destruct (nth_error cs (S i)) as [e|] eqn:E; [now exists e|]. apply nth_error_None in E. assert (j < length cs)%nat by (apply nth_error_Some; intro Z0; pose proof (eq_trans (eq_sym Z0) Hj) as Z1; discriminate Z1). lia. }
  destruct E as [e He]. assert (Led : B2R e <= B2R d). { destruct (Nat.eq_dec j (S i)) as [-> |N]; [change (nth_error cs (S i) = Some d) in Hj; rewrite He in Hj; injection Hj as ->; lra|]. left. apply (G2 (S i) j); [lia|exact He|exact Hj]. }
  destruct cs as [|c0 cs']; [destruct i; discriminate|]. destruct (G1 i c Hi) as [_ E1]. destruct (G1 (S i) e He) as [_ E2]. destruct (G1 0%nat c0 eq_refl) as [_ E0].
  destruct (B c (nth_error_In _ _ Hi)) as [_ Bc]. destruct (B c0 (or_introl eq_refl)) as [_ B0]. rewrite S_INR in E2. change (INR 0) with 0 in E0. replace (2 ^ 50) with 1125899906842624 in * by ring.
  apply Rabs_le_inv in E1, E2, E0, Bc, B0. pose proof (pos_INR i) as Pi. set (t := INR i) in *. set (H := B2R h) in *. set (kk := IZR k) in *.
  assert (T : t * H - (t + 12) * (M / 1125899906842624) <= 8 * M) by lra.
  assert (TH : t * M <= t * (1048576 * H)) by (apply Rmult_le_compat_l; lra).
  assert (T2 : t * M <= 10000000 * M) by lra. lra.
Qed.
Lemma product_sorted (Rel : f64 -> f64 -> Prop) xs (zs : list f64) : (forall x, In x xs -> Rel x x) -> StronglySorted Rel xs -> StronglySorted (fun p q : f64 * f64 => Rel (fst p) (fst q)) (list_prod xs zs).
Proof.
  intros Rf S. induction S as [|x xs S IH F]; [constructor|]. cbn [list_prod]. apply SS_app.
  - assert (Rx : Rel x x) by (apply Rf; now left). clear - Rx. induction zs as [|z zs IH]; cbn [map]; constructor; [exact IH|]. apply Forall_forall. intros q Hq. apply in_map_iff in Hq. destruct Hq as (z' & <- & _). exact Rx.
  - apply IH. intros. apply Rf. now right.
  - intros p q Hp Hq. apply in_map_iff in Hp. destruct Hp as (z & <- & _). destruct q as [x' z']. apply in_prod_iff in Hq. rewrite Forall_forall in F. apply F. apply Hq.
Qed.
Lemma separated_sorted (l : list f64) : StronglySorted (fun a b : f64 => B2R a = B2R b \/ B2R a * (1 + / 2 ^ 40) < B2R b) l -> separated l.
Proof. induction 1 as [|a l S IH F]; [exact I|]. destruct l as [|b l]; [exact I|]. split; [exact (Forall_inv F)|exact IH]. Qed.
Theorem C104_sampled_cells : forall fused inside square lcfs ox oz h M out,
  two (-80) <= M <= two 97 -> ordinary_axis M (map fst lcfs) ox h -> ordinary_axis M (map snd lcfs) oz h ->
  sample_space_2d64 fused inside square lcfs (ox, oz) h = Ok out -> out <> [] -> INR (length out) <= 10 ^ 8 ->
  (forall x z v, In (x, z, v) out -> two (-100) <= B2R x) ->
  grid_ok (map (fun s => fst (fst s)) out) (map (fun s => snd (fst s)) out) h.
Proof.
  intros fused inside square lcfs ox oz h M out HM Hx Hz Run Nout Ln Lx. rewrite !two_bpow in HM.
  destruct (axis_grid fused M _ _ _ Hx) as (xs & Ex & Gx). destruct (axis_grid fused M _ _ _ Hz) as (zs & Ez & Gz).
  unfold sample_space_2d64 in Run. cbn [fst snd] in Run. rewrite Ex, Ez in Run. cbn [bind] in Run. apply ok_inj in Run.
  destruct (grid_spread _ _ _ _ _ Hx Gx) as [Bx Sx]. destruct (grid_spread _ _ _ _ _ Hz Gz) as [Bz _]. destruct (axis_scale M _ _ _ Hx) as (_ & PM & [PH HM1] & MH & _).
  assert (B99 : 4 * M <= bp 100). { pose proof (bpow_le radix2 99 100 ltac:(lia)). assert (4 * M <= bp 2 * bp 97) by (change (bp 2) with 4; lra). rewrite bp_mul in *. change (2 + 97)%Z with 99%Z in *. lra. }
  assert (Er : map (fun s => fst (fst s)) out = map fst (filter (inside lcfs) (list_prod xs zs))) by (rewrite <- Run, map_map, mesh_prod; reflexivity).
  assert (Ezz : map (fun s => snd (fst s)) out = map snd (filter (inside lcfs) (list_prod xs zs))) by (rewrite <- Run, map_map, mesh_prod; reflexivity).
  split; [intro E; apply map_eq_nil in E; contradiction|]. split; [now rewrite !map_length|]. split; [rewrite map_length; exact Ln|]. split; [|split; [|split; [|split]]].
  - apply Forall_forall. intros x Hxx. assert (I : In x xs). { rewrite Er in Hxx. apply in_map_iff in Hxx. destruct Hxx as ([x' z'] & <- & Hp). apply filter_In in Hp. destruct Hp as [Hp _]. apply in_prod_iff in Hp. apply Hp. }
    apply in_map_iff in Hxx. destruct Hxx as ([[x' z'] v'] & <- & Hi). cbn [fst snd] in *. specialize (Lx _ _ _ Hi). destruct (Bx _ I) as [F B]. rewrite two_bpow in Lx. pose proof (bpow_gt_0 radix2 (-100)). split; [|lra]. split; [exact F|]. right. rewrite !two_bpow. rewrite Rabs_right in * by lra. lra.
  - apply separated_sorted. rewrite Er.
    assert (Sp : StronglySorted (fun a b : f64 => B2R a = B2R b \/ B2R a * (1 + / 2 ^ 40) < B2R b) xs).
    { assert (G : forall l : list f64, (forall c, In c l -> Rabs (B2R c) <= 4 * M) -> StronglySorted (fun c d : f64 => B2R c + B2R h / 2 <= B2R d) l -> StronglySorted (fun a b : f64 => B2R a = B2R b \/ B2R a * (1 + / 2 ^ 40) < B2R b) l).
      { intros l Bl S. induction S as [|a l S IH F]; [constructor|]. constructor; [apply IH; intros; apply Bl; now right|]. eapply Forall_impl; [|exact F]. cbv beta. intros b L. right. specialize (Bl a (or_introl eq_refl)). apply Rabs_le_inv in Bl. replace (2 ^ 40) with 1099511627776 by ring. lra. }
      apply G; [intros c Hc; now apply Bx|exact Sx]. }
    pose proof (SS_filter _ (inside lcfs) _ (product_sorted _ xs zs (fun x _ => or_introl eq_refl) Sp)) as Sf. clear - Sf.
    induction Sf as [|p l S IH F]; [constructor|]. cbn [map]. constructor; [exact IH|]. apply Forall_map. exact F.
  - apply Forall_forall. intros z Hzz. rewrite Ezz in Hzz. apply in_map_iff in Hzz. destruct Hzz as ([x' z'] & <- & Hp). apply filter_In in Hp. destruct Hp as [Hp _]. apply in_prod_iff in Hp. destruct (Bz z' (proj2 Hp)) as [F B]. split; [exact F|]. rewrite two_bpow. cbn [snd]. lra.
  - split; [apply Hx|]. right. rewrite !two_bpow, Rabs_right by lra. split.
    + apply (Rmult_le_reg_r 1048576); [lra|]. replace (bp (-100) * 1048576) with (bp (-80)) by (change 1048576 with (bp 20); symmetry; apply bp_mul). lra.
    + pose proof (bpow_le radix2 97 100 ltac:(lia)). lra.
  - exact PH.
Qed.
Print Assumptions C104_sampled_cells.

(** The square boundary of C95, from 4.2 m to 8.2 m in steps of 0.1 m, meets these conditions when every grid point counts as inside. *)
Example C104_sampled_hypotheses : forall square, let lcfs := [(f4_2, f4_2); (f8_2, f4_2); (f8_2, f8_2); (f4_2, f8_2)] in
  exists out, sample_space_2d64 false (fun _ _ => true) square lcfs (f6_2, f6_2) f0_1 = Ok out /\ out <> [] /\ INR (length out) <= 10 ^ 8 /\
    (forall x z v, In (x, z, v) out -> two (-100) <= B2R x) /\ grid_ok (map (fun s => fst (fst s)) out) (map (fun s => snd (fst s)) out) f0_1.
Proof.
  intros square lcfs. destruct C95_hypotheses as (Ax & Az & _). fold lcfs in Ax, Az.
  destruct (axis_grid false 16 _ _ _ Ax) as (xs & Ex & Gx). destruct (axis_grid false 16 _ _ _ Az) as (zs & Ez & Gz).
  assert (Nx : (1 <=? length xs)%nat && (length xs <=? 100)%nat = true).
  { assert (Q : match centers64 false (map fst lcfs) f6_2 f0_1 with Ok l => (1 <=? length l)%nat && (length l <=? 100)%nat | _ => false end = true) by (vm_compute; reflexivity). rewrite Ex in Q. exact Q. }
  assert (Nz : (1 <=? length zs)%nat && (length zs <=? 100)%nat = true).
  { assert (Q : match centers64 false (map snd lcfs) f6_2 f0_1 with Ok l => (1 <=? length l)%nat && (length l <=? 100)%nat | _ => false end = true) by (vm_compute; reflexivity). rewrite Ez in Q. exact Q. }
  apply andb_prop in Nx, Nz. destruct Nx as [Nx1 Nx2], Nz as [Nz1 Nz2]. apply Nat.leb_le in Nx1, Nx2, Nz1, Nz2.
  assert (FT : forall l : list (f64 * f64), filter (fun _ => true) l = l) by (clear; induction l as [|a l IH]; cbn; [reflexivity|now rewrite IH]).
  assert (Run : exists out, sample_space_2d64 false (fun _ _ => true) square lcfs (f6_2, f6_2) f0_1 = Ok out /\ map (fun s => (fst (fst s), snd (fst s))) out = list_prod xs zs).
  { eexists. unfold sample_space_2d64. cbn [fst snd]. rewrite Ex, Ez. cbn [bind]. split; [reflexivity|]. rewrite map_map. cbn [fst snd]. rewrite mesh_prod, FT. erewrite map_ext; [apply map_id|]. intros []; reflexivity. }
  destruct Run as (out & Run & P).
  assert (Lo : length out = (length xs * length zs)%nat) by (rewrite <- (map_length (fun s : f64 * f64 * f64 => (fst (fst s), snd (fst s))) out), P; apply prod_length).
  assert (N0 : out <> []) by (intros ->; cbn in Lo; nia).
  assert (N8 : INR (length out) <= 10 ^ 8).
  { apply Rle_trans with (INR (100 * 100)); [apply le_INR; nia|]. rewrite mult_INR. replace (INR 100) with 100 by (rewrite INR_IZR_INZ; reflexivity). lra. }
  assert (R0 : forall x z v, In (x, z, v) out -> two (-100) <= B2R x).
  { intros x z v I. assert (J : In (x, z) (list_prod xs zs)) by (rewrite <- P; apply in_map_iff; exists (x, z, v); now split). apply in_prod_iff in J. destruct Gx as (k & _ & _ & _ & G4). destruct (G4 x (proj1 J)) as (a & b & Ia & _ & L & _).
    destruct ex_axis as (_ & _ & _ & _ & _ & _ & _). destruct (value_of f4_2 4728779608739021 (-50)) as [F1 V1]; [vm_compute; reflexivity|]. destruct (value_of f8_2 4616189618054758 (-49)) as [F2 V2]; [vm_compute; reflexivity|].
    destruct (value_of f0_1 7205759403792794 (-56)) as [F4 V4]; [vm_compute; reflexivity|]. change (bp (-50)) with (/ 1125899906842624) in *. change (bp (-49)) with (/ 562949953421312) in *. change (bp (-56)) with (/ 72057594037927936) in *.
    rewrite two_bpow. pose proof (bpow_le radix2 (-100) 0 ltac:(lia)) as B. change (bp 0) with 1 in B.
    assert (La : 4 <= B2R a). { cbn [lcfs map fst In] in Ia. destruct Ia as [<- |[<- |[<- |[<- |[]]]]]; lra. } lra. }
  exists out. split; [exact Run|]. split; [exact N0|]. split; [exact N8|]. split; [exact R0|].
  apply (C104_sampled_cells false (fun _ _ => true) square lcfs f6_2 f6_2 f0_1 16); try assumption.
  rewrite !two_bpow. split; [apply Rle_trans with (bp 4); [apply bpow_le; lia|change (bp 4) with 16; lra]|apply Rle_trans with (bp 4); [change (bp 4) with 16; lra|apply bpow_le; lia]].
Qed.

(** [separated] is needed: neighbouring doubles can have the same value in cm, and their columns are merged. *)
Lemma round_at m e n : (2 ^ 52 <= n < 2 ^ 53)%Z -> (-1074 <= e)%Z -> Rabs (m - IZR n) < / 2 -> IZR n + / 2 <= bp 53 -> bp 52 <= m -> rnd (m * bp e) = IZR n * bp e.
Proof.
  intros Hn He E U Lm. assert (Mg : Raux.mag radix2 (m * bp e) = (53 + e)%Z :> Z).
  { apply mag_unique. apply Rabs_def2 in E. pose proof (bpow_gt_0 radix2 e). pose proof (bpow_gt_0 radix2 52). rewrite Rabs_right by (apply Rle_ge, Rmult_le_pos; lra). replace (53 + e - 1)%Z with (52 + e)%Z by lia. rewrite !bpow_plus. split; [apply Rmult_le_compat_r; lra|apply Rmult_lt_compat_r; lra]. }
  unfold round, F2R, scaled_mantissa, cexp. rewrite Mg. unfold FLT_exp. replace (Z.max (53 + e - 53) (-1074)) with e by lia. cbn [Fnum Fexp].
  replace (m * bp e * bp (- e)) with m by (rewrite Rmult_assoc, <- bpow_plus; replace (e + - e)%Z with 0%Z by lia; cbn [bpow]; ring). rewrite (Znearest_imp _ m n) by exact E. reflexivity.
Qed.
Definition near_1 : f64 := binary_normalize 53 1024 Hprec64 Hmax64 mode_NE 6755399441055746 (-50) false.
Definition near_2 : f64 := binary_normalize 53 1024 Hprec64 Hmax64 mode_NE 6755399441055747 (-50) false.
Definition hundred : f64 := f64_of_Z 100.
Lemma hundred_ok : factor_ok hundred 100.
Proof. destruct (f64_of_Z_exact 100 ltac:(lia)) as [F V]. split; [exact F|]. unfold hundred. rewrite V, Rminus_diag_eq, Rabs_R0 by reflexivity. apply Rmult_le_pos; [lra|]. left. apply Rinv_0_lt_compat, pow_lt. lra. Qed.
Lemma near_cm : is_finite near_1 = true /\ is_finite near_2 = true /\ B2R near_1 = 6755399441055746 * bp (-50) /\ B2R near_2 = 6755399441055747 * bp (-50) /\ fmul near_1 hundred = fmul near_2 hundred.
Proof.
  destruct (normalize_exact 6755399441055746 (-50) false ltac:(lia) ltac:(lia)) as [F1 V1]. destruct (normalize_exact 6755399441055747 (-50) false ltac:(lia) ltac:(lia)) as [F2 V2]. fold near_1 in F1, V1. fold near_2 in F2, V2.
  do 4 (split; [assumption|]).
  destruct (f64_of_Z_exact 100 ltac:(lia)) as [Fh Vh]. fold hundred in Fh, Vh.
  assert (G : forall (x : f64) m, is_finite x = true -> B2R x = m * bp (-50) -> Rabs (m * (100 / 128) - 5277655813324802) < / 2 -> fin (fmul x hundred) /\ B2R (fmul x hundred) = 5277655813324802 * bp (-43)).
  { intros x m Fx Vx Em. apply Rabs_def2 in Em. pose proof (Bmult_correct 53 1024 Hprec64 Hmax64 mode_NE x hundred) as H. rewrite fexp64 in H. change (round_mode mode_NE) with ZnearestE in H. rewrite Vx, Vh in H.
    assert (E : m * bp (-50) * 100 = m * (100 / 128) * bp (-43)). { replace (bp (-43)) with (bp (-50) * bp 7) by (symmetry; apply (bpow_plus radix2 (-50) 7)). change (bp 7) with 128. field. }
    rewrite E in H. rewrite (round_at (m * (100 / 128)) (-43) 5277655813324802) in H; [|lia|lia|apply Rabs_def1; lra|change (bp 53) with 9007199254740992; lra|change (bp 52) with 4503599627370496; lra].
    assert (B : Rabs (5277655813324802 * bp (-43)) < bp 1024). { pose proof (bpow_gt_0 radix2 (-43)). rewrite Rabs_right by lra. apply Rlt_trans with (bp 53 * bp (-43)); [apply Rmult_lt_compat_r; [assumption|change (bp 53) with 9007199254740992; lra]|]. rewrite <- bpow_plus. apply bpow_lt. lia. }
    rewrite Rlt_bool_true in H by exact B. destruct H as (V & F & _). rewrite Fx, Fh in F. fold (fmul x hundred) in V, F. split; [exact F|exact V]. }
  destruct (G near_1 6755399441055746 F1 V1 ltac:(apply Rabs_def1; lra)) as [A1 B1]. destruct (G near_2 6755399441055747 F2 V2 ltac:(apply Rabs_def1; lra)) as [A2 B2].
  pose proof (bpow_gt_0 radix2 (-43)). apply (B2R_Bsign_inj 53 1024); [exact A1|exact A2|congruence|]. rewrite !pos_sign; [reflexivity|rewrite B2; lra|rewrite B1; lra].
Qed.
Lemma small_moderate x : is_finite x = true -> / 1024 <= B2R x <= 1024 -> moderate x.
Proof. intros F B. split; [exact F|]. right. rewrite !two_bpow, Rabs_right by lra. pose proof (bpow_le radix2 (-100) (-10) ltac:(lia)) as L. pose proof (bpow_le radix2 10 100 ltac:(lia)) as U. change (bp (-10)) with (/ 1024) in L. change (bp 10) with 1024 in U. lra. Qed.
Lemma three {A} (P : A -> Prop) a b c : P a -> P b -> P c -> Forall P [a; b; c].
Proof. intros. constructor; [assumption|]. constructor; [assumption|]. constructor; [assumption|constructor]. Qed.
Theorem C104_adjacent_radii_refuted : exists a b : f64, moderate a /\ moderate b /\ 0 < B2R a < B2R b /\
  forall MeV npsum table cit stub z1 z2 h t1 t2 s1 s2,
    factor_ok MeV (/ 1000) -> (forall l, sums l (npsum l)) -> table_ok table -> proper_citation cit -> Forall (fun x => is_finite x = true /\ Rabs (B2R x) <= two 100) [z1; z2] -> moderate h -> 0 < B2R h ->
    temps_ok [t1; t2] -> channel_ok [a; b] (DT, [s1; s2]) ->
    let written := write_mcnp_sdef_source64 hundred MeV npsum table cit stub [a; b] [z1; z2] h [t1; t2] [(DT, [s1; s2])] in
    written = write_mcnp_sdef_source64 hundred MeV npsum table cit stub [a; a] [z1; z2] h [t1; t2] [(DT, [s1; s2])] /\
    exists file, written = ([file], Ok tt) /\ ~ holds_channel64 table stub [a; b] [z1; z2] h [t1; t2] (DT, [s1; s2]) file.
Proof.
  destruct near_cm as (F1 & F2 & V1 & V2 & E). exists near_1, near_2. set (k := bp (-50)) in *. assert (Kp : k = / 1125899906842624) by reflexivity. pose proof (bpow_gt_0 radix2 (-50)) as K0. fold k in K0.
  assert (M1 : moderate near_1) by (apply small_moderate; [exact F1|rewrite V1; lra]). assert (M2 : moderate near_2) by (apply small_moderate; [exact F2|rewrite V2; lra]).
  split; [exact M1|]. split; [exact M2|]. assert (Lt : 0 < B2R near_1 < B2R near_2) by (rewrite V1, V2; lra). split; [exact Lt|]. clear F1 F2 V1 V2 k Kp K0.
  intros MeV npsum table cit stub z1 z2 h t1 t2 s1 s2 Hm Hs Ht Pc Fz Mh Ph Ft Hc written.
  assert (S : written = write_mcnp_sdef_source64 hundred MeV npsum table cit stub [near_1; near_1] [z1; z2] h [t1; t2] [(DT, [s1; s2])]).
  { unfold written, write_mcnp_sdef_source64. cbn [map]. now rewrite E. }
  split; [exact S|]. destruct (C104_file_contents hundred MeV npsum table cit stub [near_1; near_1] [z1; z2] h [t1; t2] [(DT, [s1; s2])]) as (files & Ew & Fw); try assumption.
  - exact hundred_ok.
  - split; [discriminate|]. split; [reflexivity|]. split; [cbn; lra|]. split; [constructor; [split; [exact M1|lra]|constructor; [split; [exact M1|lra]|constructor]]|]. split; [split; [now left|exact I]|]. split; [exact Fz|]. split; assumption.
  - reflexivity.
  - intros channel [<- |[]] _. exact Hc.
  - change (filter (fun channel : reaction * list f64 => neutronic (fst channel)) [(DT, [s1; s2])]) with [(DT, [s1; s2])] in Fw.
    inversion Fw as [|? file ? rest Hf Fr]; subst. inversion Fr; subst. exists file. split; [rewrite S; exact Ew|]. intros (_ & (en & En & Rd) & _). destruct Hf as (_ & (en' & En' & Rd') & _). cbn [fst snd] in *.
    apply Forall2_length in Rd, Rd'. rewrite <- Rd' in Rd. revert Rd. cbn [map combine columns].
    assert (Le : length en = length en') by (inversion En; inversion En'; reflexivity).
    destruct (Req_EM_T (B2R near_1) (B2R near_2)) as [Q|Q]; [lra|]. destruct (Req_EM_T (B2R near_1) (B2R near_1)) as [Q'|Q']; [|congruence].
    unfold expected_deck64. rewrite !app_length. cbn. lia.
Qed.
Print Assumptions C104_adjacent_radii_refuted.

(** The hypotheses are met: three cells in two columns, and a table for the T-T spectrum. *)
Definition table_1 : f64 -> res (list f64 * list f64) := fun _ => Ok ([f64_of_Z 1], [f64_of_Z 1]).
Definition thousandth : f64 := binary_normalize 53 1024 Hprec64 Hmax64 mode_NE 4611686018427388 (-62) false.
Lemma thousandth_ok : factor_ok thousandth (/ 1000).
Proof.
  destruct (normalize_exact 4611686018427388 (-62) false ltac:(lia) ltac:(lia)) as [F V]. split; [exact F|]. unfold thousandth. rewrite V. change (bp (-62)) with (/ 4611686018427387904). unfold Rdiv. rewrite (pow_IZR 2 50). change (2 ^ Z.of_nat 50)%Z with 1125899906842624%Z. apply Rabs_le. lra.
Qed.
Lemma ex_num n : (1 <= n <= 100)%Z -> moderate (f64_of_Z n) /\ B2R (f64_of_Z n) = IZR n /\ unsigned (f64_of_Z n) /\ strength_ok (f64_of_Z n) /\ between (-50) 50 (f64_of_Z n).
Proof.
  intro H. destruct (f64_of_Z_exact n ltac:(lia)) as [F V]. assert (B : 1 <= IZR n <= 100) by (split; apply IZR_le; lia). rewrite <- V in B.
  assert (U : unsigned (f64_of_Z n)) by (split; [exact F|apply pos_sign; lra]).
  split; [apply small_moderate; [exact F|lra]|]. split; [exact V|]. split; [exact U|]. split.
  - split; [exact U|right]. rewrite !two_bpow. pose proof (bpow_le radix2 (-300) 0 ltac:(lia)) as L1. pose proof (bpow_le radix2 7 150 ltac:(lia)) as L2. change (bp 0) with 1 in L1. change (bp 7) with 128 in L2. lra.
  - split; [exact F|]. rewrite !two_bpow. pose proof (bpow_le radix2 (-50) 0 ltac:(lia)) as L1. pose proof (bpow_le radix2 7 50 ltac:(lia)) as L2. change (bp 0) with 1 in L1. change (bp 7) with 128 in L2. lra.
Qed.
Example C104_hypotheses :
  let n := f64_of_Z in let r := [n 1%Z; n 1%Z; n 2%Z] in let st := [(DT, [n 1%Z; n 2%Z; n 3%Z]); (DDp, []); (TT, [n 4%Z; f0; n 2%Z])] in
  factor_ok hundred 100 /\ factor_ok thousandth (/ 1000) /\ (forall l, sums l (pysum64 l)) /\ table_ok table_1 /\ proper_citation ex_citation /\
  grid_ok r [f0; n 1%Z; f0] (n 1%Z) /\ temps_ok [n 10%Z; n 10%Z; n 20%Z] /\
  (forall channel, In channel st -> neutronic (fst channel) = true -> channel_ok r channel) /\
  (forall npsum, (forall l, sums l (npsum l)) -> exists files, write_mcnp_sdef_source64 hundred thousandth npsum table_1 ex_citation (txt "out") r [f0; n 1%Z; f0] (n 1%Z) [n 10%Z; n 10%Z; n 20%Z] st = (files, Ok tt) /\ map fst files = [txt "out.DT"; txt "out.TT"]).
Proof.
  intros n r st. destruct (ex_num 1) as (M1 & V1 & U1 & S1 & T1); [lia|]. destruct (ex_num 2) as (M2 & V2 & U2 & S2 & T2); [lia|]. destruct (ex_num 3) as (M3 & V3 & U3 & S3 & T3); [lia|]. destruct (ex_num 4) as (M4 & V4 & U4 & S4 & T4); [lia|]. destruct (ex_num 10) as (M10 & V10 & U10 & S10 & T10); [lia|]. destruct (ex_num 20) as (M20 & V20 & U20 & S20 & T20); [lia|].
  fold n in M1, V1, U1, S1, T1, M2, V2, U2, S2, T2, V3, S3, V4, S4, T10, T20.
  assert (S0 : strength_ok f0) by (split; [split; reflexivity|now left]). assert (M0 : moderate f0) by (split; [reflexivity|now left]).
  assert (Ht : table_ok table_1). { intros T _ _. exists [f64_of_Z 1], [f64_of_Z 1]. split; [reflexivity|]. split; [discriminate|]. split; [discriminate|]. split; (constructor; [|constructor]); [split; [exact U1|exact M1]|exact U1]. }
  assert (Gr : grid_ok r [f0; n 1%Z; f0] (n 1%Z)).
  { split; [discriminate|]. split; [reflexivity|]. split; [cbn; lra|]. split; [|split; [|split; [|split]]].
    - constructor; [split; [exact M1|lra]|]. constructor; [split; [exact M1|lra]|]. constructor; [split; [exact M2|lra]|constructor].
    - cbn [separated r]. split; [now left|]. split; [right|exact I]. rewrite V1, V2. assert (Q : / 2 ^ 40 < 1) by (rewrite <- Rinv_1; apply Rinv_lt_contravar; [rewrite Rmult_1_l; apply pow_lt; lra|apply Rlt_pow_R1; [lra|lia]]). lra.
    - apply three; rewrite two_bpow; apply moderate_bounded; assumption.
    - exact M1.
    - lra. }
  assert (Ft : temps_ok [n 10%Z; n 10%Z; n 20%Z]). { unfold temps_ok. constructor; [exact T10|]. constructor; [exact T10|]. constructor; [exact T20|constructor]. }
  assert (Hc : forall channel, In channel st -> neutronic (fst channel) = true -> channel_ok r channel).
  { intros channel [<- |[<- |[<- |[]]]] Hn; try discriminate Hn; (split; [reflexivity|]); cbn [snd map SpecSource.total]; (split; [apply three; assumption|]); rewrite ?V1, ?V2, ?V3, ?V4; try change (B2R f0) with 0; lra. }
  split; [exact hundred_ok|]. split; [exact thousandth_ok|]. split; [apply pysum64_sums|]. split; [exact Ht|]. split; [exact ex_citation_proper|]. split; [exact Gr|]. split; [exact Ft|]. split; [exact Hc|].
  intros npsum Hs. destruct (C104_file_contents hundred thousandth npsum table_1 ex_citation (txt "out") r [f0; n 1%Z; f0] (n 1%Z) [n 10%Z; n 10%Z; n 20%Z] st hundred_ok thousandth_ok Hs Ht ex_citation_proper Gr Ft eq_refl Hc) as (files & E & F).
  exists files. split; [exact E|]. change (filter (fun channel : reaction * list f64 => neutronic (fst channel)) st) with [(DT, [n 1%Z; n 2%Z; n 3%Z]); (TT, [n 4%Z; f0; n 2%Z])] in F.
  inversion F as [|? a ? l Ha F1]; subst. inversion F1 as [|? b ? l' Hb F2]; subst. inversion F2; subst. cbn [map]. f_equal; [apply Ha|f_equal; apply Hb].
Qed.
