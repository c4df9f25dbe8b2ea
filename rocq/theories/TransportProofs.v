(** Lemmas about the transport model. *)
From Coq Require Import Sorted Permutation.
From Verif Require Import Base Profile SpecProfile ProfileProofs Transport SpecTransport.

(** ** Heap *)
Lemma update_length {A} (l : list A) i f : length (update l i f) = length l.
Proof. revert i; induction l as [|a l IH]; intros [|i]; cbn; auto. Qed.
Lemma update_same {A} (l : list A) i f a : nth_error l i = Some a -> nth_error (update l i f) i = Some (f a).
Proof. revert i; induction l as [|b l IH]; intros [|i]; cbn; try congruence; apply IH. Qed.
Lemma update_other {A} (l : list A) i j f : i <> j -> nth_error (update l i f) j = nth_error l j.
Proof. revert i j; induction l as [|b l IH]; intros [|i] [|j] H; cbn; try congruence; apply IH; congruence. Qed.
Lemma update_app_end {A} (l : list A) a f : update (l ++ [a]) (length l) f = l ++ [f a].
Proof. induction l as [|b l IH]; cbn; congruence. Qed.

Lemma deepcopy_ok h n p : nth_error h n = Some p -> deepcopy h n = Ok (h ++ [p], length h).
Proof. intro Hn. unfold deepcopy. now rewrite Hn. Qed.
Lemma hss_end h p s : heap_set_scale (h ++ [p]) (length h) s = h ++ [set_scale s p].
Proof. apply update_app_end. Qed.

Lemma from_param_eq h t n rho c p : nth_error h n = Some p ->
  from_parameterisations h t n rho c =
  Ok (h ++ [set_scale (fD c) p; set_scale (fT c) p; set_scale (fHe3 c) p],
      {| d_prof := length h; t_prof := S (length h); he3_prof := S (S (length h)); temp_prof := t; rho_prof := rho |}).
Proof.
  intro Hn. assert (Hlt : (n < length h)%nat) by (apply nth_error_Some; congruence).
  unfold from_parameterisations. cbv zeta.
  rewrite (deepcopy_ok h n p Hn). cbn [bind]. rewrite hss_end.
  set (h1 := h ++ [set_scale (fD c) p]).
  assert (H1 : nth_error h1 n = Some p) by (unfold h1; rewrite nth_error_app1; assumption).
  assert (L1 : length h1 = S (length h)) by (unfold h1; rewrite app_length; cbn; lia).
  rewrite (deepcopy_ok h1 n p H1). cbn [bind]. rewrite hss_end.
  set (h2 := h1 ++ [set_scale (fT c) p]).
  assert (H2 : nth_error h2 n = Some p) by (unfold h2; rewrite nth_error_app1; [assumption|lia]).
  assert (L2 : length h2 = S (S (length h))) by (unfold h2; rewrite app_length; cbn; lia).
  rewrite (deepcopy_ok h2 n p H2). cbn [bind]. rewrite hss_end.
  rewrite L1, L2. unfold h2, h1. rewrite <- !app_assoc. reflexivity.
Qed.
Lemma from_param_none h t n rho c : nth_error h n = None -> from_parameterisations h t n rho c = Err EAttribute.
Proof. intro H; unfold from_parameterisations, deepcopy; rewrite H; reflexivity. Qed.

Lemma run1_length h c : (length h <= length (run1 h c))%nat.
Proof.
  destruct c as [r s|t n rho k]; cbn.
  - unfold heap_set_scale; rewrite update_length; lia.
  - destruct (nth_error h n) as [p|] eqn:E.
    + rewrite (from_param_eq h t n rho k p E). rewrite app_length; lia.
    + rewrite from_param_none by exact E. lia.
Qed.

Lemma read_scale_same h r s rho : read (heap_set_scale h r s) r rho = res_map (Rmult s) (read h r rho).
Proof.
  unfold read, heap_set_scale. destruct (nth_error h r) as [p|] eqn:E.
  - rewrite (update_same _ _ _ p E). apply value_set_scale.
  - replace (nth_error (update h r (set_scale s)) r) with (@None profile); [reflexivity|].
    symmetry; apply nth_error_None. rewrite update_length. now apply nth_error_None.
Qed.
Lemma read_scale_other h r s r' rho : r <> r' -> read (heap_set_scale h r s) r' rho = read h r' rho.
Proof. intro H; unfold read, heap_set_scale; rewrite update_other by exact H; reflexivity. Qed.
Lemma read_app h h' r rho : (r < length h)%nat -> read (h ++ h') r rho = read h r rho.
Proof. intro H; unfold read; rewrite nth_error_app1 by exact H; reflexivity. Qed.

Lemma read_run1 h c r rho : (r < length h)%nat ->
  read (run1 h c) r rho = res_map (Rmult (factor r [c])) (read h r rho).
Proof.
  intro Hr. assert (Id : forall x : res R, x = res_map (Rmult 1) x)
    by (intros []; unfold res_map; cbn; [f_equal; ring|reflexivity|reflexivity]).
  destruct c as [r' s|t n rho' k]; cbn [run1 factor].
  - destruct (Nat.eqb_spec r r') as [<-|Hne].
    + rewrite read_scale_same, Rmult_1_r. reflexivity.
    + rewrite read_scale_other by congruence. apply Id.
  - destruct (nth_error h n) as [p|] eqn:E.
    + rewrite (from_param_eq h t n rho' k p E). rewrite read_app by exact Hr. apply Id.
    + rewrite from_param_none by exact E. apply Id.
Qed.

Lemma factor_cons r c cs : factor r (c :: cs) = factor r [c] * factor r cs.
Proof. destruct c as [r' s|t n rho k]; cbn; [destruct (Nat.eqb r r'); ring|ring]. Qed.

Lemma read_run h cs r rho : (r < length h)%nat ->
  read (run h cs) r rho = res_map (Rmult (factor r cs)) (read h r rho).
Proof.
  revert h; induction cs as [|c cs IH]; intros h Hr.
  - cbn. destruct (read h r rho); unfold res_map; cbn; [f_equal; ring|reflexivity|reflexivity].
  - unfold run in *. cbn [fold_left]. rewrite IH by (pose proof (run1_length h c); lia).
    rewrite read_run1 by exact Hr. rewrite res_map_comp. apply res_map_ext; intro a.
    rewrite (factor_cons r c cs); ring.
Qed.

(** ** Data profiles are linear in the values. *)
Lemma sort_pairs_snd (g : R -> R) l :
  sort_pairs (map (fun p => (fst p, g (snd p))) l) = map (fun p => (fst p, g (snd p))) (sort_pairs l).
Proof.
  unfold sort_pairs.
  assert (Ins : forall p acc, insert_pair (fst p, g (snd p)) (map (fun p => (fst p, g (snd p))) acc)
                 = map (fun p => (fst p, g (snd p))) (insert_pair p acc)).
  { intros p acc; induction acc as [|q acc IH]; cbn; [reflexivity|].
    destruct (Rleb (fst q) (fst p)); cbn; [rewrite IH|]; reflexivity. }
  assert (K : forall acc, fold_left (fun acc p => insert_pair p acc) (map (fun p => (fst p, g (snd p))) l)
      (map (fun p => (fst p, g (snd p))) acc)
      = map (fun p => (fst p, g (snd p))) (fold_left (fun acc p => insert_pair p acc) l acc)).
  { induction l as [|p l IH]; intro acc; cbn [map fold_left]; [reflexivity|]. rewrite Ins. apply IH. }
  apply (K []).
Qed.
Lemma interp_from_scale k x0 y0 rest v :
  interp_from x0 (k * y0) (map (fun p => (fst p, k * snd p)) rest) v = k * interp_from x0 y0 rest v.
Proof.
  revert x0 y0; induction rest as [|[x1 y1] r IH]; intros x0 y0; cbn [map interp_from fst snd]; [reflexivity|].
  destruct (Rleb x1 v); [apply IH|unfold Rdiv; ring].
Qed.
Lemma last_x_snd g x0 rest : last_x x0 (map (fun p => (fst p, g (snd p) : R)) rest) = last_x x0 rest.
Proof. revert x0; induction rest as [|[x1 y1] r IH]; intro x0; cbn; [reflexivity|apply IH]. Qed.
Lemma interp1d_scale k t v :
  interp1d_call (map (fun p => (fst p, k * snd p)) t) v = res_map (Rmult k) (interp1d_call t v).
Proof.
  destruct t as [|[x0 y0] rest]; [reflexivity|]. cbn [map interp1d_call fst snd].
  rewrite (last_x_snd (Rmult k)). destruct (Rltb v x0); [reflexivity|].
  destruct (Rltb (last_x x0 rest) v); [reflexivity|]. rewrite interp_from_scale. reflexivity.
Qed.
Lemma combine_map_r (k : R) (rho vals : list R) :
  combine rho (map (Rmult k) vals) = map (fun p : R * R => (fst p, k * snd p)) (combine rho vals).
Proof. revert vals; induction rho as [|r rho IH]; intros [|v vals]; cbn; try reflexivity; rewrite IH; reflexivity. Qed.

Lemma data_profile_scale k vals rho s p : data_profile vals rho s = Ok p ->
  exists p', data_profile (map (Rmult k) vals) rho s = Ok p' /\
    forall x, value p' x = res_map (Rmult k) (value p x).
Proof.
  unfold data_profile. rewrite map_length. destruct (Nat.eqb (length rho) (length vals)); [|discriminate].
  destruct rho as [|r rho]; [discriminate|]. intro H.
  assert (p = PData (sort_pairs (combine (r :: rho) vals)) s) as -> by congruence. clear H.
  eexists; split; [reflexivity|]. intro x. cbn [value].
  rewrite combine_map_r, (sort_pairs_snd (Rmult k)), interp1d_scale.
  generalize (interp1d_call (sort_pairs (combine (r :: rho) vals)) (clip 0 1 x)); intros [a|e|]; unfold res_map; cbn [bind];
  [f_equal; ring|reflexivity|reflexivity].
Qed.
Lemma data_profile_iff vals rho s : (exists p, data_profile vals rho s = Ok p) <-> length vals = length rho /\ rho <> [].
Proof.
  unfold data_profile. destruct (Nat.eqb_spec (length rho) (length vals)) as [E|E].
  - destruct rho as [|r rho]; split.
    + intros [p Hp]; discriminate.
    + intros [_ H]; congruence.
    + intros _; split; [congruence|discriminate].
    + intros _; eauto.
  - split; [intros [p Hp]; discriminate|intros [H _]; congruence].
Qed.
Lemma data_profile_fail vals rho s : ~ (length vals = length rho /\ rho <> []) -> data_profile vals rho s = Err EValue.
Proof.
  unfold data_profile. destruct (Nat.eqb_spec (length rho) (length vals)) as [E|E]; [|reflexivity].
  destruct rho; [reflexivity|]. intro H; exfalso; apply H; split; [congruence|discriminate].
Qed.

Lemma from_arrays_eq h dv tv hv Tv rho pd pt ph pT :
  data_profile dv rho 1 = Ok pd -> data_profile tv rho 1 = Ok pt -> data_profile hv rho 1 = Ok ph ->
  data_profile Tv rho 1 = Ok pT ->
  from_arrays h dv tv hv Tv rho = Ok (h ++ [pd; pt; ph; pT],
    {| d_prof := length h; t_prof := S (length h); he3_prof := S (S (length h));
       temp_prof := S (S (S (length h))); rho_prof := rho |}).
Proof.
  intros H1 H2 H3 H4. unfold from_arrays, alloc. rewrite H1, H2, H3, H4. cbn [bind].
  rewrite <- !app_assoc. cbn [app]. f_equal. f_equal. f_equal; rewrite ?app_length; cbn; lia.
Qed.

Lemma nth_app_k {A} (h : list A) l k : nth_error (h ++ l) (length h + k)%nat = nth_error l k.
Proof. rewrite nth_error_app2 by lia. f_equal; lia. Qed.
Lemma read_app_k h l k rho : read (h ++ l) (length h + k)%nat rho =
  match nth_error l k with Some p => value p rho | None => Err EAttribute end.
Proof. unfold read. rewrite nth_app_k. reflexivity. Qed.
Lemma read_new0 h p l rho : read (h ++ p :: l) (length h) rho = value p rho.
Proof. pose proof (read_app_k h (p :: l) 0 rho) as H. rewrite Nat.add_0_r in H. exact H. Qed.
Lemma read_new1 h p q l rho : read (h ++ p :: q :: l) (S (length h)) rho = value q rho.
Proof. pose proof (read_app_k h (p :: q :: l) 1 rho) as H. rewrite Nat.add_1_r in H. exact H. Qed.
Lemma read_new2 h p q s l rho : read (h ++ p :: q :: s :: l) (S (S (length h))) rho = value s rho.
Proof. pose proof (read_app_k h (p :: q :: s :: l) 2 rho) as H. replace (length h + 2)%nat with (S (S (length h))) in H by lia. exact H. Qed.
Lemma read_new3 h p q s u l rho : read (h ++ p :: q :: s :: u :: l) (S (S (S (length h)))) rho = value u rho.
Proof. pose proof (read_app_k h (p :: q :: s :: u :: l) 3 rho) as H. replace (length h + 3)%nat with (S (S (S (length h)))) in H by lia. exact H. Qed.

(** ** Fuel composition *)
Lemma comp_sum_eq c : comp_sum c = fD c + fT c + fHe3 c.
Proof. unfold comp_sum, pysum; cbn; ring. Qed.
Lemma fuel_composition_cases D T H :
  (D + T + H = 1 /\ fuel_composition D T H = Ok ({| fD := D; fT := T; fHe3 := H |}, false)) \/
  (D + T + H = 0 /\ fuel_composition D T H = Err EZeroDivision) \/
  (D + T + H <> 1 /\ D + T + H <> 0 /\
   fuel_composition D T H = Ok ({| fD := D / (D + T + H); fT := T / (D + T + H); fHe3 := H / (D + T + H) |}, true)).
Proof.
  unfold fuel_composition. rewrite comp_sum_eq. cbn [fD fT fHe3].
  destruct (Reqb_spec (D + T + H) 1) as [E|E]; cbn [negb]; [tauto|].
  destruct (Reqb_spec (D + T + H) 0) as [E'|E']; tauto.
Qed.

(** ** load_jsp *)
Lemma py_index_nat {A} (l : list A) k : (k < length l)%nat ->
  exists a, nth_error l k = Some a /\ py_index l (Z.of_nat k) = Ok a.
Proof.
  intro H. destruct (nth_error l k) as [a|] eqn:E; [|apply nth_error_None in E; lia].
  exists a; split; [reflexivity|]. unfold py_index.
  destruct (Z.ltb_spec (Z.of_nat k) 0); [lia|]. cbn.
  destruct (Z.ltb_spec (Z.of_nat k) 0); [lia|]. rewrite Nat2Z.id, E. reflexivity.
Qed.
Lemma py_index_last {A} (l : list A) : l <> [] -> exists a, nth_error l (length l - 1) = Some a /\ py_index l (-1) = Ok a.
Proof.
  intro H. assert (0 < length l)%nat by (destruct l; [congruence|cbn; lia]).
  unfold py_index. cbn [Z.ltb Z.compare]. destruct (Z.ltb_spec (-1 + Z.of_nat (length l)) 0); [lia|].
  replace (Z.to_nat (-1 + Z.of_nat (length l))) with (length l - 1)%nat by lia.
  destruct (nth_error l (length l - 1)) as [a|] eqn:E; [eauto|]. apply nth_error_None in E; lia.
Qed.

Lemma load_jsp_ok f k i rho ti nd nt r00 :
  well_formed f -> frame_of (length (jTIME f)) k = Some i ->
  nth_error (jXPSQ f) i = Some rho -> nth_error (jTI f) i = Some ti ->
  nth_error (jNID f) i = Some nd -> nth_error (jNIT f) i = Some nt -> nth_error (jR00 f) i = Some r00 ->
  exists ti0 nd0 nt0 rate,
    nth_error ti 0 = Some ti0 /\ nth_error nd 0 = Some nd0 /\ nth_error nt 0 = Some nt0 /\
    nth_error r00 (length r00 - 1) = Some rate /\
    load_jsp f k = Ok {| o_rho := 0 :: rho; o_ti := map (fun x => x / 1000) (ti0 :: ti);
      o_d := nd0 :: nd; o_t := nt0 :: nt; o_he3 := 0 :: map (fun _ => 0) rho; o_rate := rate |}.
Proof.
  intros (L1 & L2 & L3 & L4 & L5 & m & Hm & F1 & F2 & F3 & F4 & F5) Hk N1 N2 N3 N4 N5.
  set (n := length (jTIME f)) in *.
  assert (Hi : (i < n)%nat) by (rewrite <- L1; apply nth_error_Some; congruence).
  assert (M : forall (M : list (list R)) row, Forall (fun row => length row = m) M -> nth_error M i = Some row -> length row = m).
  { intros M row HF HN. apply nth_error_In in HN. rewrite Forall_forall in HF; auto. }
  pose proof (M _ _ F1 N1) as R1. pose proof (M _ _ F2 N2) as R2. pose proof (M _ _ F3 N3) as R3.
  pose proof (M _ _ F4 N4) as R4. pose proof (M _ _ F5 N5) as R5.
  assert (P0 : forall l : list R, length l = m -> exists a, nth_error l 0 = Some a /\ py_index l 0 = Ok a).
  { intros l Hl. apply (py_index_nat l 0). lia. }
  destruct (P0 ti R2) as (ti0 & T1 & T2). destruct (P0 nd R3) as (nd0 & D1 & D2).
  destruct (P0 nt R4) as (nt0 & K1 & K2).
  destruct (P0 (map (fun _ : R => 0) rho) ltac:(now rewrite map_length)) as (h0 & H1 & H2).
  assert (h0 = 0). { apply nth_error_In, in_map_iff in H1. destruct H1 as (? & <- & _); reflexivity. } subst h0.
  destruct (py_index_last r00) as (rate & Q1 & Q2); [intros ->; cbn in R5; lia|].
  exists ti0, nd0, nt0, rate. repeat split; try assumption.
  assert (PI : forall M : list (list R), length M = n -> forall row, nth_error M i = Some row -> py_index M (Z.of_nat i) = Ok row).
  { intros M' HL row HR. destruct (py_index_nat M' i ltac:(lia)) as (a & A1 & A2). congruence. }
  unfold load_jsp. fold n.
  assert (C : ((k <? -1) || (Z.of_nat n - 1 <? k))%Z = false /\
              (if k =? -1 then Z.of_nat n - 1 else k)%Z = Z.of_nat i).
  { unfold frame_of in Hk. destruct (Z.eqb_spec k (-1)) as [->|Hne].
    - destruct (Nat.eqb_spec n 0); [discriminate|]. injection Hk as <-.
      split; [|lia]. destruct (Z.ltb_spec (Z.of_nat n - 1) (-1)); [lia|reflexivity].
    - destruct (Z.leb_spec 0 k), (Z.ltb_spec k (Z.of_nat n)); try discriminate. injection Hk as <-.
      split; [|lia]. destruct (Z.ltb_spec k (-1)), (Z.ltb_spec (Z.of_nat n - 1) k); try lia; reflexivity. }
  destruct C as [C1 C2]. rewrite C1, C2.
  rewrite (PI _ L1 _ N1), (PI _ L2 _ N2), (PI _ L3 _ N3), (PI _ L4 _ N4). cbn [bind].
  rewrite T2, D2, K2, H2. cbn [bind]. rewrite (PI _ L5 _ N5). cbn [bind]. rewrite Q2. reflexivity.
Qed.

Lemma load_jsp_bad f k : frame_of (length (jTIME f)) k = None -> (k <> -1)%Z -> load_jsp f k = Err EValue.
Proof.
  unfold frame_of, load_jsp. intros H Hk. destruct (Z.eqb_spec k (-1)); [contradiction|].
  destruct (Z.leb_spec 0 k) as [h1|h1], (Z.ltb_spec k (Z.of_nat (length (jTIME f)))) as [h2|h2]; cbn in H; try discriminate;
  destruct (Z.ltb_spec k (-1)), (Z.ltb_spec (Z.of_nat (length (jTIME f)) - 1) k); cbn; try reflexivity; lia.
Qed.
