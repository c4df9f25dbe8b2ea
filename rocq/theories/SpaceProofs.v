(** Lemmas about sample_space_2d. *)
From Coq Require Import Sorted.
From Verif Require Import Base Space SpecSpace.

Lemma Int_part_spec x : IZR (Int_part x) <= x < IZR (Int_part x) + 1.
Proof. destruct (base_Int_part x); split; lra. Qed.
Lemma Rceil_spec x : x <= IZR (Rceil x) < x + 1.
Proof. unfold Rceil. rewrite opp_IZR. destruct (Int_part_spec (- x)); split; lra. Qed.

Lemma arange_in start stop step y : 0 < step ->
  (In y (arange start stop step) <-> exists i : nat, y = start + INR i * step /\ y < stop).
Proof.
  intro Hs. unfold arange. rewrite in_map_iff. 
  set (q := (stop - start) / step). assert (Hq : q * step = stop - start) by (unfold q; field; lra).
  destruct (Rceil_spec q) as [C1 C2]. split.
  - intros (i & <- & Hi). exists i. split; [reflexivity|]. apply in_seq in Hi.
    assert (IZR (Z.of_nat i) <= IZR (Rceil q) - 1).
    { rewrite <- minus_IZR. apply IZR_le. lia. }
    rewrite INR_IZR_INZ. nra.
  - intros (i & -> & Hlt). exists i. split; [reflexivity|]. apply in_seq. split; [lia|].
    assert (INR i < q) by nra. rewrite INR_IZR_INZ in H.
    assert (IZR (Z.of_nat i) < IZR (Rceil q)) by lra. apply lt_IZR in H0. lia.
Qed.

(** The centres: exactly the lattice points above c_min whose left edge is below c_max. *)
Lemma centers_ok coords o h : coords <> [] -> exists cs, centers coords o h = Ok cs.
Proof. destruct coords as [|a l]; [congruence|]; intros _; unfold centers; cbn; eauto. Qed.

Lemma centers_in coords o h cs c : 0 < h -> centers coords o h = Ok cs ->
  exists lo hi, np_min coords = Ok lo /\ np_max coords = Ok hi /\
   (In c cs <-> exists k : Z, c = o + IZR k * h /\ lo - 2 * h <= c /\ c < hi + 2 * h + 0.5 * h).
Proof.
  intros Hh. unfold centers. destruct (np_min coords) as [lo| |]; cbn; try discriminate.
  destruct (np_max coords) as [hi| |]; cbn; try discriminate. intro E; injection E as <-.
  exists lo, hi. split; [reflexivity|]. split; [reflexivity|].
  set (m := lo - 2 * h). set (M := hi + 2 * h). unfold py_mod.
  set (f := Int_part ((o - m) / h)). destruct (Int_part_spec ((o - m) / h)) as [F1 F2]. fold f in F1, F2.
  set (q := (o - m) / h) in *. assert (Hq : q * h = o - m) by (unfold q; field; lra).
  rewrite in_map_iff. split.
  - intros (y & <- & Hy). apply arange_in in Hy; [|exact Hh]. destruct Hy as (i & -> & Hlt).
    exists (Z.of_nat i - f)%Z. rewrite minus_IZR, <- INR_IZR_INZ.
    pose proof (pos_INR i). split; [unfold m; lra|]. split; nra.
  - intros (k & -> & L & U). exists (o + IZR k * h - 0.5 * h). split; [lra|].
    apply arange_in; [exact Hh|]. exists (Z.to_nat (k + f)).
    assert (0 <= k + f)%Z.
    { assert (IZR k + q >= 0) by nra.
      assert (-1 < k + f)%Z; [|lia]. apply lt_IZR. rewrite plus_IZR. change (IZR (-1)) with (-1). lra. }
    split; [|lra]. rewrite INR_IZR_INZ, Z2Nat.id by assumption. rewrite plus_IZR. unfold m; nra.
Qed.

Lemma arange_sorted start stop step : 0 < step -> StronglySorted Rlt (arange start stop step).
Proof.
  intro Hs. unfold arange. generalize (Z.to_nat (Rceil ((stop - start) / step))). intro n. generalize 0%nat as a.
  induction n as [|n IH]; intro a; cbn [seq map]; constructor; [apply IH|].
  apply Forall_forall. intros y Hy. apply in_map_iff in Hy. destruct Hy as (j & <- & Hj). apply in_seq in Hj.
  assert (INR a < INR j) by (apply lt_INR; lia). nra.
Qed.
Lemma sorted_map_plus c l : StronglySorted Rlt l -> StronglySorted Rlt (map (fun x => x + c) l).
Proof.
  induction 1 as [|a l Hs IH Ha]; cbn; constructor; [exact IH|].
  apply Forall_forall. intros y Hy. apply in_map_iff in Hy. destruct Hy as (b & <- & Hb).
  rewrite Forall_forall in Ha. specialize (Ha b Hb). lra.
Qed.
Lemma centers_sorted coords o h cs : 0 < h -> centers coords o h = Ok cs -> StronglySorted Rlt cs.
Proof.
  intro Hh. unfold centers. destruct (np_min coords); cbn; try discriminate.
  destruct (np_max coords); cbn; try discriminate. intro E; injection E as <-.
  apply sorted_map_plus, arange_sorted, Hh.
Qed.

(** ** mesh *)
Definition lexlt (p q : R * R) : Prop := fst p < fst q \/ (fst p = fst q /\ snd p < snd q).

Lemma mesh_in xs zs p : In p (mesh xs zs) <-> In (fst p) xs /\ In (snd p) zs.
Proof.
  unfold mesh. rewrite in_flat_map. split.
  - intros (x & Hx & Hp). apply in_map_iff in Hp. destruct Hp as (z & <- & Hz). auto.
  - intros [H1 H2]. exists (fst p). split; [exact H1|]. apply in_map_iff. exists (snd p). destruct p; auto.
Qed.
Lemma SS_app {A} (P : A -> A -> Prop) l1 l2 : StronglySorted P l1 -> StronglySorted P l2 ->
  (forall a b, In a l1 -> In b l2 -> P a b) -> StronglySorted P (l1 ++ l2).
Proof.
  induction 1 as [|a l Hs IH Ha]; cbn; intros H2 H; [exact H2|]. constructor.
  - apply IH; auto.
  - apply Forall_app. split; [exact Ha|]. apply Forall_forall. auto.
Qed.
Lemma mesh_sorted xs zs : StronglySorted Rlt xs -> StronglySorted Rlt zs -> StronglySorted lexlt (mesh xs zs).
Proof.
  intros Hx Hz. induction Hx as [|x xs Hs IH Hx]; cbn; [constructor|]. apply SS_app; [|exact IH|].
  - clear -Hz. induction Hz as [|z zs Hs IH Hz]; cbn; constructor; [exact IH|].
    apply Forall_forall. intros p Hp. apply in_map_iff in Hp. destruct Hp as (z' & <- & Hz').
    right; cbn. rewrite Forall_forall in Hz. auto.
  - intros p q Hp Hq. apply in_map_iff in Hp. destruct Hp as (z & <- & _).
    change (In q (mesh xs zs)) in Hq. apply mesh_in in Hq. rewrite Forall_forall in Hx. left; cbn. apply Hx, Hq.
Qed.
Lemma SS_filter {A} (P : A -> A -> Prop) f l : StronglySorted P l -> StronglySorted P (filter f l).
Proof.
  induction 1 as [|a l Hs IH Ha]; cbn; [constructor|]. destruct (f a); [|exact IH].
  constructor; [exact IH|]. apply Forall_forall. intros b Hb. apply filter_In in Hb. rewrite Forall_forall in Ha. apply Ha, Hb.
Qed.
Lemma SS_map {A B} (P : A -> A -> Prop) (Q : B -> B -> Prop) (g : A -> B) l :
  (forall a b, P a b -> Q (g a) (g b)) -> StronglySorted P l -> StronglySorted Q (map g l).
Proof.
  intro H. induction 1 as [|a l Hs IH Ha]; cbn; constructor; [exact IH|].
  apply Forall_forall. intros b Hb. apply in_map_iff in Hb. destruct Hb as (c & <- & Hc). rewrite Forall_forall in Ha. auto.
Qed.

(** ** sample_space_2d *)
Section Sample.
  Variable inside : list (R * R) -> R * R -> bool.
  Variables (lcfs : list (R * R)) (o : R * R) (h : R).
  Hypothesis Hh : 0 < h.

  Lemma sample_cases : (lcfs = [] /\ sample_space_2d inside lcfs o h = Err EValue) \/
    exists xs zs, centers (map fst lcfs) (fst o) h = Ok xs /\ centers (map snd lcfs) (snd o) h = Ok zs /\
      sample_space_2d inside lcfs o h =
        Ok (map (fun p => (fst p, snd p, 2 * PI * fst p * (h * h))) (filter (inside lcfs) (mesh xs zs))).
  Proof.
    unfold sample_space_2d. destruct (Reqb_spec h 0); [lra|].
    destruct lcfs as [|v l]; [left; auto|right].
    destruct (centers_ok (map fst (v :: l)) (fst o) h) as [xs Hx]; [discriminate|].
    destruct (centers_ok (map snd (v :: l)) (snd o) h) as [zs Hz]; [discriminate|].
    exists xs, zs. rewrite Hx, Hz. auto.
  Qed.

  Variable ss : list sample.
  Hypothesis Hss : sample_space_2d inside lcfs o h = Ok ss.

  Lemma sample_lattice s : In s ss -> inside lcfs (sx s, sz s) = true /\
    (exists i j, (sx s, sz s) = lattice o h i j) /\ svol s = 2 * PI * sx s * (h * h).
  Proof.
    destruct sample_cases as [[_ E]|(xs & zs & Hx & Hz & E)]; rewrite E in Hss; [discriminate|].
    injection Hss as <-. intro Hs. apply in_map_iff in Hs. destruct Hs as (p & <- & Hp).
    apply filter_In in Hp. destruct Hp as [Hm Hi]. apply mesh_in in Hm. destruct Hm as [H1 H2].
    destruct (centers_in _ _ _ _ (fst p) Hh Hx) as (lo1 & hi1 & _ & _ & C1). apply C1 in H1. destruct H1 as (i & Ei & _).
    destruct (centers_in _ _ _ _ (snd p) Hh Hz) as (lo2 & hi2 & _ & _ & C2). apply C2 in H2. destruct H2 as (j & Ej & _).
    unfold sx, sz, svol, lattice. cbn [fst snd]. split; [now rewrite <- surjective_pairing|]. split; [|reflexivity].
    exists i, j. congruence.
  Qed.

  Lemma sample_complete i j : stays_in_box inside -> inside lcfs (lattice o h i j) = true ->
    exists s, In s ss /\ (sx s, sz s) = lattice o h i j.
  Proof.
    intros Hb Hin. destruct sample_cases as [[_ E]|(xs & zs & Hx & Hz & E)]; rewrite E in Hss; [discriminate|].
    injection Hss as <-. set (p := lattice o h i j) in *.
    exists (fst p, snd p, 2 * PI * fst p * (h * h)). split; [|reflexivity].
    apply in_map_iff. exists p. split; [reflexivity|]. apply filter_In. split; [|exact Hin].
    destruct (Hb _ _ Hin) as ((a & A1 & A2) & (b & B1 & B2) & (c & C1 & C2) & (d & D1 & D2)).
    apply mesh_in. split.
    - destruct (centers_in _ _ _ _ (fst p) Hh Hx) as (lo & hi & L & U & C). apply C. exists i. split; [reflexivity|].
      apply np_min_spec in L. apply np_max_spec in U. destruct L as [_ L], U as [_ U].
      specialize (L (fst a) (in_map fst _ _ A1)). specialize (U (fst b) (in_map fst _ _ B1)). lra.
    - destruct (centers_in _ _ _ _ (snd p) Hh Hz) as (lo & hi & L & U & C). apply C. exists j. split; [reflexivity|].
      apply np_min_spec in L. apply np_max_spec in U. destruct L as [_ L], U as [_ U].
      specialize (L (snd c) (in_map snd _ _ C1)). specialize (U (snd d) (in_map snd _ _ D1)). lra.
  Qed.

  Lemma sample_sorted : StronglySorted before ss.
  Proof.
    destruct sample_cases as [[_ E]|(xs & zs & Hx & Hz & E)]; rewrite E in Hss; [discriminate|].
    injection Hss as <-. eapply SS_map with (P := lexlt).
    - intros a b H; exact H.
    - apply SS_filter, mesh_sorted; eapply centers_sorted; eauto.
  Qed.

  Lemma before_irrefl s : ~ before s s. Proof. unfold before; lra. Qed.
  Lemma sample_nodup_points : NoDup (map fst ss).
  Proof.
    pose proof sample_sorted as H. clear Hss. induction H as [|s l Hs IH Hl]; cbn; constructor; [|exact IH].
    intro Hi. apply in_map_iff in Hi. destruct Hi as (t & E & Ht). rewrite Forall_forall in Hl. specialize (Hl t Ht).
    unfold before, sx, sz in Hl. rewrite E in Hl. lra.
  Qed.
End Sample.

(** ** Translation *)
Lemma np_min_shift l a m : np_min l = Ok m -> np_min (map (fun x => x + a) l) = Ok (m + a).
Proof.
  destruct l as [|b r]; cbn; [discriminate|]. intro E; injection E as <-. f_equal. revert b.
  induction r as [|c r IH]; intro b; cbn; [reflexivity|]. rewrite <- IH. f_equal.
  unfold Rmin; repeat destruct Rle_dec; lra.
Qed.
Lemma np_max_shift l a m : np_max l = Ok m -> np_max (map (fun x => x + a) l) = Ok (m + a).
Proof.
  destruct l as [|b r]; cbn; [discriminate|]. intro E; injection E as <-. f_equal. revert b.
  induction r as [|c r IH]; intro b; cbn; [reflexivity|]. rewrite <- IH. f_equal.
  unfold Rmax; repeat destruct Rle_dec; lra.
Qed.
Lemma centers_shift coords o h a cs : centers coords o h = Ok cs ->
  centers (map (fun x => x + a) coords) (o + a) h = Ok (map (fun x => x + a) cs).
Proof.
  unfold centers. destruct (np_min coords) as [lo| |] eqn:L; cbn; try discriminate.
  destruct (np_max coords) as [hi| |] eqn:U; cbn; try discriminate. intro E; injection E as <-.
  rewrite (np_min_shift _ a _ L), (np_max_shift _ a _ U). cbn. f_equal.
  replace (o + a - (lo + a - 2 * h)) with (o - (lo - 2 * h)) by ring.
  set (d := py_mod (o - (lo - 2 * h)) h). unfold arange.
  replace (hi + a + 2 * h - (lo + a - 2 * h + (d - 0.5 * h))) with (hi + 2 * h - (lo - 2 * h + (d - 0.5 * h))) by ring.
  rewrite !map_map. apply map_ext. intro i. ring.
Qed.
Lemma mesh_map f g xs zs : mesh (map f xs) (map g zs) = map (fun p => (f (fst p), g (snd p))) (mesh xs zs).
Proof.
  unfold mesh. induction xs as [|x xs IH]; cbn; [reflexivity|]. rewrite map_app, IH, !map_map. reflexivity.
Qed.
Lemma filter_map {A B} (f : A -> B) (p : B -> bool) l : filter p (map f l) = map f (filter (fun a => p (f a)) l).
Proof. induction l as [|a l IH]; cbn; [reflexivity|]. destruct (p (f a)); cbn; rewrite IH; reflexivity. Qed.

Lemma sample_shift inside lcfs o h a b ss : 0 < h ->
  (forall p, inside (map (shift_pt a b) lcfs) (shift_pt a b p) = inside lcfs p) ->
  sample_space_2d inside lcfs o h = Ok ss ->
  exists ss', sample_space_2d inside (map (shift_pt a b) lcfs) (shift_pt a b o) h = Ok ss' /\
    map (fun s => (sx s, sz s)) ss' = map (fun s => (sx s + a, sz s + b)) ss.
Proof.
  intros Hh Hi E. destruct (sample_cases inside lcfs o h Hh) as [[_ E']|(xs & zs & Hx & Hz & E')]; rewrite E in E'; [discriminate|].
  injection E' as ->. unfold sample_space_2d. destruct (Reqb_spec h 0); [lra|].
  assert (X : map fst (map (shift_pt a b) lcfs) = map (fun x => x + a) (map fst lcfs)) by (rewrite !map_map; reflexivity).
  assert (Z : map snd (map (shift_pt a b) lcfs) = map (fun x => x + b) (map snd lcfs)) by (rewrite !map_map; reflexivity).
  rewrite X, Z. cbn [shift_pt fst snd]. rewrite (centers_shift _ _ _ a _ Hx), (centers_shift _ _ _ b _ Hz). cbn [bind].
  eexists; split; [reflexivity|].
  rewrite mesh_map, filter_map, !map_map. cbn [fst snd sx sz].
  erewrite filter_ext; [reflexivity|]. intro p. apply (Hi p).
Qed.

(** ** The crossing test stays in the bounding box. *)
Definition straddles (p v0 v1 : R * R) : bool := negb (Bool.eqb (Rleb (snd p) (snd v0)) (Rleb (snd p) (snd v1))).

Fixpoint any_cross (p first v0 : R * R) (rest : list (R * R)) : Prop :=
  match rest with
  | [] => crossing p v0 first = true
  | v1 :: r => crossing p v0 v1 = true \/ any_cross p first v1 r
  end.
Lemma crossings_any p first v0 rest : crossings p first v0 rest false = true -> any_cross p first v0 rest.
Proof.
  revert v0; induction rest as [|v1 r IH]; intros v0; cbn [crossings any_cross].
  - rewrite xorb_false_l. auto.
  - rewrite xorb_false_l. destruct (crossing p v0 v1); [now left|]. intro; right; now apply IH.
Qed.
Lemma any_cross_edge p first v0 rest : any_cross p first v0 rest ->
  exists a b, In a (v0 :: rest) /\ In b (first :: rest) /\ crossing p a b = true.
Proof.
  revert v0; induction rest as [|v1 r IH]; intros v0; cbn [any_cross].
  - intro H; exists v0, first; cbn; auto.
  - intros [H|H]; [exists v0, v1; cbn; auto|]. destruct (IH v1 H) as (a & b & Ha & Hb & Hc).
    exists a, b. split; [now right|]. split; [destruct Hb as [<-|Hb]; [now left|right; now right]|exact Hc].
Qed.

Lemma crossing_true p a b : crossing p a b = true ->
  ((snd a < snd p <= snd b) \/ (snd b < snd p <= snd a)) /\ (fst p <= fst a \/ fst p <= fst b).
Proof.
  unfold crossing. destruct (Rleb_spec (snd p) (snd a)) as [Ha|Ha], (Rleb_spec (snd p) (snd b)) as [Hb|Hb]; cbn; try discriminate;
  destruct (Rleb_spec ((fst b - fst p) * (snd a - snd b)) ((snd b - snd p) * (fst a - fst b))) as [Hc|Hc]; cbn; try discriminate; intros _.
  - split; [right; lra|]. destruct (Rle_lt_dec (fst p) (fst a)); [now left|]. destruct (Rle_lt_dec (fst p) (fst b)); [now right|]. nra.
  - split; [left; lra|]. destruct (Rle_lt_dec (fst p) (fst a)); [now left|]. destruct (Rle_lt_dec (fst p) (fst b)); [now right|]. nra.
Qed.

(** Left of the whole polygon every straddling edge is crossed, so the parity is that of the
    sign changes along a closed loop: even. *)
Lemma crossing_left p a b : fst p < fst a -> fst p < fst b -> crossing p a b = straddles p a b.
Proof.
  intros H1 H2. unfold crossing, straddles.
  destruct (Rleb_spec (snd p) (snd a)) as [Ha|Ha], (Rleb_spec (snd p) (snd b)) as [Hb|Hb]; cbn; try reflexivity;
  destruct (Rleb_spec ((fst b - fst p) * (snd a - snd b)) ((snd b - snd p) * (fst a - fst b))) as [Hc|Hc]; cbn; try reflexivity; exfalso; nra.
Qed.
Lemma crossings_left p first v0 rest b :
  (forall v, In v (first :: v0 :: rest) -> fst p < fst v) ->
  crossings p first v0 rest b = xorb b (xorb (Rleb (snd p) (snd v0)) (Rleb (snd p) (snd first))).
Proof.
  revert v0 b; induction rest as [|v1 r IH]; intros v0 b H; cbn [crossings].
  - rewrite crossing_left by (apply H; cbn; auto). unfold straddles.
    destruct (Rleb (snd p) (snd v0)), (Rleb (snd p) (snd first)), b; reflexivity.
  - rewrite IH by (intros v [<-|[<-|Hv]]; apply H; cbn; auto).
    rewrite crossing_left by (apply H; cbn; auto). unfold straddles.
    destruct (Rleb (snd p) (snd v0)), (Rleb (snd p) (snd v1)), (Rleb (snd p) (snd first)), b; reflexivity.
Qed.

Lemma mpl_inside_box : stays_in_box mpl_inside.
Proof.
  intros poly p H. destruct poly as [|v rest]; [discriminate|]. cbn [mpl_inside] in H.
  pose proof (crossings_any _ _ _ _ H) as A. apply any_cross_edge in A. destruct A as (a & b & Ha & Hb & Hc).
  apply crossing_true in Hc. destruct Hc as [Hs Hx].
  split; [|split; [|split]].
  - destruct (existsb (fun v => Rleb (fst v) (fst p)) (v :: rest)) eqn:E.
    + apply existsb_exists in E. destruct E as (w & Hw & Hl). apply Rleb_true in Hl. eauto.
    + exfalso. assert (All : forall w, In w (v :: rest) -> fst p < fst w).
      { intros w Hw. assert (Rleb (fst w) (fst p) = false).
        { destruct (Rleb (fst w) (fst p)) eqn:Q; [|reflexivity]. rewrite <- E. symmetry. apply existsb_exists. eauto. }
        now apply Rleb_false in H0. }
      rewrite crossings_left in H.
      * rewrite xorb_nilpotent, xorb_false_l in H. discriminate.
      * intros w [<-|Hw]; [apply All; now left|]. apply All, Hw.
  - destruct Hx; [exists a|exists b]; auto.
  - destruct Hs; [exists a|exists b]; split; auto; lra.
  - destruct Hs; [exists b|exists a]; split; auto; lra.
Qed.

Lemma crossing_shift a b p u v : crossing (shift_pt a b p) (shift_pt a b u) (shift_pt a b v) = crossing p u v.
Proof.
  unfold crossing, shift_pt; cbn [fst snd].
  assert (L : forall x y c, Rleb (x + c) (y + c) = Rleb x y).
  { intros x y c. destruct (Rleb_spec (x + c) (y + c)), (Rleb_spec x y); try reflexivity; lra. }
  rewrite !L.
  replace (fst v + a - (fst p + a)) with (fst v - fst p) by ring.
  replace (snd u + b - (snd v + b)) with (snd u - snd v) by ring.
  replace (snd v + b - (snd p + b)) with (snd v - snd p) by ring.
  replace (fst u + a - (fst v + a)) with (fst u - fst v) by ring. reflexivity.
Qed.
Lemma mpl_inside_shift a b lcfs p : mpl_inside (map (shift_pt a b) lcfs) (shift_pt a b p) = mpl_inside lcfs p.
Proof.
  destruct lcfs as [|v rest]; [reflexivity|]. cbn [map mpl_inside]. generalize false as acc. generalize v at 2 4 as w.
  induction rest as [|u r IH]; intros w acc; cbn [map crossings]; rewrite crossing_shift; [reflexivity|apply IH].
Qed.
