(** The numbers on the T-T energy cards are in range at every temperature (shipped data). *)
From Coq Require Import Ascii String List Bool Arith ZArith NArith Lia Sorted.
From Verif Require Import Base Reactions SpectraData Energy SpecEnergy EnergyProofs P_Energy SpecFormat FormatProofs SpecMcnp McnpProofs.

Definition dec_small (top : Z) (d : dec) : bool := match d with V m e => (0 <? m)%Z && (m <=? top * 10 ^ Z.of_N e)%Z && (e <=? 100)%N end.
Lemma rows_small : forallb (fun row => dec_small 100 (fst row) && forallb (dec_small 1) (snd row)) tt_rows = true.
Proof. vm_compute. reflexivity. Qed.
Lemma dec_small_bounds top d : dec_small top d = true -> powerRZ 10 (-100) <= decimal d <= IZR top.
Proof.
  destruct d as [m e]. unfold dec_small. rewrite !andb_true_iff. intros [[H1 H2] H3]. apply Z.ltb_lt in H1. apply Z.leb_le in H2. apply N.leb_le in H3.
  unfold decimal. assert (P : (0 < 10 ^ Z.of_N e)%Z) by (apply Z.pow_pos_nonneg; lia). pose proof (IZR_lt _ _ P) as P'. split.
  - replace (powerRZ 10 (-100)) with (1 / IZR (10 ^ 100)).
    + apply Rmult_le_reg_r with (IZR (10 ^ Z.of_N e) * IZR (10 ^ 100)); [apply Rmult_lt_0_compat; [exact P'|apply IZR_lt; reflexivity]|].
      replace (1 / IZR (10 ^ 100) * (IZR (10 ^ Z.of_N e) * IZR (10 ^ 100))) with (IZR (10 ^ Z.of_N e)) by (field; apply not_0_IZR; discriminate).
      replace (IZR m / IZR (10 ^ Z.of_N e) * (IZR (10 ^ Z.of_N e) * IZR (10 ^ 100))) with (IZR m * IZR (10 ^ 100)) by (field; lra).
      rewrite <- mult_IZR. apply IZR_le. assert (10 ^ Z.of_N e <= 10 ^ 100)%Z by (apply Z.pow_le_mono_r; lia). nia.
    + change (powerRZ 10 (-100)) with (/ 10 ^ 100). rewrite pow_IZR. change (Z.of_nat 100) with 100%Z. unfold Rdiv. ring.
  - apply Rmult_le_reg_r with (IZR (10 ^ Z.of_N e)); [exact P'|]. unfold Rdiv. rewrite Rmult_assoc, Rinv_l, Rmult_1_r by lra. rewrite <- mult_IZR. now apply IZR_le.
Qed.
Lemma row_facts : forall row, In row tt_rows -> powerRZ 10 (-100) <= decimal (fst row) <= 100 /\ forall d, In d (snd row) -> powerRZ 10 (-100) <= decimal d <= 1.
Proof.
  intros row H. pose proof rows_small as C. rewrite forallb_forall in C. specialize (C row H). apply andb_prop in C. destruct C as [C1 C2].
  split; [now apply dec_small_bounds|]. intros d Hd. rewrite forallb_forall in C2. now apply dec_small_bounds, C2.
Qed.
Lemma within lo hi x y u : 0 <= u <= 1 -> lo <= x <= hi -> lo <= y <= hi -> lo <= (1 - u) * x + u * y <= hi.
Proof. intros. nra. Qed.
Lemma integral_bounds lo hi : forall e y, increasing e -> length e = length y -> Forall (fun v => lo <= v <= hi) y -> e <> [] ->
  lo * (last e 0 - hd 0 e) <= integral (combine e y) <= hi * (last e 0 - hd 0 e).
Proof.
  intros e. induction e as [|x e IH]; intros y Hi L F N; [congruence|]. destruct y as [|v y]; [discriminate|]. destruct e as [|x' e].
  - destruct y; [|discriminate]. cbn. lra.
  - destruct y as [|v' y]; [discriminate|]. inversion Hi as [|? ? Hs Hf]; subst. specialize (IH (v' :: y) Hs ltac:(cbn in *; lia) (Forall_inv_tail F) ltac:(discriminate)).
    pose proof (Forall_inv Hf) as Hx. cbv beta in Hx. pose proof (Forall_inv F) as B1. pose proof (Forall_inv (Forall_inv_tail F)) as B2. cbv beta in B1, B2.
    change (last (x :: x' :: e) 0) with (last (x' :: e) 0). cbn [combine integral hd] in *. set (l := last (x' :: e) 0) in *. set (J := integral _) in *. clearbody l J.
    assert (lo * (x' - x) <= (x' - x) * (v + v') / 2 <= hi * (x' - x)) by nra. lra.
Qed.
Lemma tt_ends : hd 0 table_energies <= 1 /\ 2 <= last table_energies 0 <= 10 ^ 5.
Proof.
  assert (H : hd 0 table_energies = 1000 * decimal (fst (hd (V 0 0, []) tt_rows))) by reflexivity.
  assert (L : last table_energies 0 = 1000 * decimal (fst (last tt_rows (V 0 0, [])))).
  { unfold table_energies. assert (N : tt_rows <> []) by discriminate. revert N. generalize tt_rows. intros l N. induction l as [|a l IH]; [congruence|]. destruct l as [|b l]; [reflexivity|].
    change (last (a :: b :: l) (V 0 0, [])) with (last (b :: l) (V 0 0, [])). rewrite <- IH by discriminate. reflexivity. }
  rewrite H, L.
  let v := eval vm_compute in (fst (hd (V 0 0, []) tt_rows)) in change (fst (hd (V 0 0, []) tt_rows)) with v.
  let v := eval vm_compute in (fst (last tt_rows (V 0 0, []))) in replace (fst (last tt_rows (V 0 0, []))) with v by (vm_compute; reflexivity).
  unfold decimal. cbn [Z.of_N]. change (10 ^ 3)%Z with 1000%Z. split; [lra|].
  match goal with |- 2 <= 1000 * (?a / IZR ?b) <= _ => let v := eval vm_compute in b in change b with v end. lra.
Qed.

Lemma range_of lo hi x : (-400 <= lo)%Z -> (hi <= 400)%Z -> powerRZ 10 lo <= x <= powerRZ 10 hi -> double_range x.
Proof.
  intros Hl Hh [H1 H2]. right. pose proof (pow10_le _ _ Hl). pose proof (pow10_le _ _ Hh). assert (0 < powerRZ 10 lo) by (apply powerRZ_lt; lra). rewrite Rabs_right by lra. lra.
Qed.
Lemma scaled_range e y c : increasing e -> length e = length y -> hd 0 e <= 1 -> 0 <= hd 0 e -> 2 <= last e 0 <= 10 ^ 5 -> Forall (fun v => powerRZ 10 (-103) <= v <= 1) y -> e <> [] ->
  integral (combine e (map (fun x => c * x) y)) = 1 -> Forall double_range (map (fun x => c * x) y).
Proof.
  intros Hi L H1 H0 H2 F N I. rewrite integral_scale in I. pose proof (integral_bounds _ _ e y Hi L F N) as [B1 B2].
  set (J := integral (combine e y)) in *. set (s := last e 0 - hd 0 e) in *. assert (Hs : 1 <= s <= 10 ^ 5) by (unfold s; lra). clearbody J s.
  set (k := powerRZ 10 (-103)) in *. assert (Hk : 0 < k) by (unfold k; apply powerRZ_lt; lra).
  assert (Kk : k * powerRZ 10 103 = 1) by (unfold k; rewrite <- powerRZ_add by lra; reflexivity).
  assert (J1 : k <= J) by nra. assert (J2 : J <= 10 ^ 5) by lra. assert (C : c = / J) by (apply (Rmult_eq_reg_r J); [rewrite Rinv_l by lra; exact I|lra]).
  assert (Cl : / 10 ^ 5 <= c) by (rewrite C; apply Rinv_le_contravar; lra).
  assert (Ch : c <= powerRZ 10 103).
  { rewrite C. replace (powerRZ 10 103) with (/ k); [apply Rinv_le_contravar; lra|]. apply (Rmult_eq_reg_l k); [|lra]. rewrite Rinv_r by lra. symmetry. exact Kk. }
  apply Forall_map. apply Forall_forall. intros x Hx. rewrite Forall_forall in F. specialize (F x Hx). cbv beta in F.
  apply (range_of (-108) 103); [lia|lia|]. replace (powerRZ 10 (-108)) with (/ 10 ^ 5 * k).
  - assert (0 < / 10 ^ 5) by (apply Rinv_0_lt_compat; lra). split; [apply Rmult_le_compat; lra|]. assert (0 < c) by lra. set (q := powerRZ 10 103) in *. clearbody q. nra.
  - change (/ 10 ^ 5) with (powerRZ 10 (-5)). unfold k. rewrite <- powerRZ_add by lra. reflexivity.
Qed.
Lemma table_spectrum_small j : (j < 40)%nat -> Forall (fun v => powerRZ 10 (-103) <= v <= 1) (table_spectrum j).
Proof.
  intro H. destruct table_facts as (_ & _ & F). apply Forall_forall. intros x Hx. apply in_map_iff in Hx. destruct Hx as (row & <- & Hr).
  destruct (F row Hr) as [L _]. destruct (row_facts row Hr) as [_ P]. specialize (P (nth j (snd row) (V 0 0)) ltac:(apply nth_In; lia)).
  replace (powerRZ 10 (-103)) with (powerRZ 10 (-100) / 1000).
  - split; lra.
  - unfold Rdiv. replace (/ 1000) with (powerRZ 10 (-3)) by (change (powerRZ 10 (-3)) with (/ 10 ^ 3); f_equal; lra). rewrite <- powerRZ_add by lra. reflexivity.
Qed.
Lemma mix_small lo hi u x y : 0 <= u <= 1 -> Forall (fun v => lo <= v <= hi) x -> Forall (fun v => lo <= v <= hi) y -> Forall (fun v => lo <= v <= hi) (mix u x y).
Proof.
  intros Hw Hx Hy. apply Forall_forall. intros v Hv. apply in_map_iff in Hv. destruct Hv as ([a b] & <- & Hab). cbn [fst snd].
  pose proof (in_combine_l _ _ _ _ Hab) as Ha. pose proof (in_combine_r _ _ _ _ Hab) as Hb. rewrite Forall_forall in Hx, Hy. apply within; auto.
Qed.
Lemma table_energies_small : Forall (fun x => double_range (x / 1000)) table_energies /\ 0 <= hd 0 table_energies.
Proof.
  split.
  - apply Forall_forall. intros x Hx. apply in_map_iff in Hx. destruct Hx as (row & <- & Hr). destruct (row_facts row Hr) as [P _].
    apply (range_of (-100) 2); [lia|lia|]. replace (1000 * decimal (fst row) / 1000) with (decimal (fst row)) by field. cbn [powerRZ] in *. change (Pos.to_nat 2) with 2%nat. cbn [pow]. lra.
  - destruct table_energies as [|x l] eqn:E; [cbn; lra|]. cbn [hd]. assert (Hx : In x table_energies) by (rewrite E; now left). apply in_map_iff in Hx. destruct Hx as (row & <- & Hr).
    destruct (row_facts row Hr) as [P _]. assert (0 < powerRZ 10 (-100)) by (apply powerRZ_lt; lra). lra.
Qed.
Lemma mixed_range E a b u c : increasing E -> hd 0 E <= 1 /\ 2 <= last E 0 <= 10 ^ 5 -> Forall (fun x => double_range (x / 1000)) E /\ 0 <= hd 0 E -> E <> [] ->
  Forall (fun v => powerRZ 10 (-103) <= v <= 1) a -> Forall (fun v => powerRZ 10 (-103) <= v <= 1) b -> 0 <= u <= 1 ->
  length E = length (map (fun x => c * x) (mix u a b)) -> integral (combine E (map (fun x => c * x) (mix u a b))) = 1 ->
  Forall (fun x => double_range (x / 1000)) E /\ Forall double_range (map (fun x => c * x) (mix u a b)).
Proof.
  intros Hi [H1 H2] [H3 H4] N Fa Fb Hu L I. split; [exact H3|]. rewrite map_length in L. apply (scaled_range E); try assumption. now apply mix_small.
Qed.
Lemma table_energies_nonempty : table_energies <> [].
Proof. intro Z. pose proof table_energies_length as Q. rewrite Z in Q. discriminate. Qed.
Lemma prob_in_range u c j : 0 <= u <= 1 -> (j < 39)%nat ->
  length table_energies = length (map (fun x => c * x) (mix u (table_spectrum j) (table_spectrum (S j)))) ->
  integral (combine table_energies (map (fun x => c * x) (mix u (table_spectrum j) (table_spectrum (S j))))) = 1 ->
  Forall (fun x => double_range (x / 1000)) table_energies /\ Forall double_range (map (fun x => c * x) (mix u (table_spectrum j) (table_spectrum (S j)))).
Proof.
  intros Hu Hj. destruct table_facts as (_ & Ti & _).
  exact (mixed_range table_energies (table_spectrum j) (table_spectrum (S j)) u c Ti tt_ends table_energies_small table_energies_nonempty
    (table_spectrum_small j ltac:(lia)) (table_spectrum_small (S j) ltac:(lia)) Hu).
Qed.
Lemma transfer (spec : res (option (list R * list R) * list swarning)) e p w0 e' p' w : spec = Ok (Some (e, p), w0) -> spec = Ok (Some (e', p'), w) ->
  Forall (fun x => double_range (x / 1000)) e' /\ Forall double_range p' -> Forall (fun x => double_range (x / 1000)) e /\ Forall double_range p.
Proof. intros -> E. injection E as -> -> _. auto. Qed.
Lemma ratio_unit a b x : a < b -> a <= x <= b -> 0 <= (x - a) / (b - a) <= 1.
Proof.
  intros H Hx. split; [apply Rmult_le_pos; [lra|left; apply Rinv_0_lt_compat; lra]|].
  apply (Rmult_le_reg_r (b - a)); [lra|]. unfold Rdiv. rewrite Rmult_assoc, Rinv_l by lra. lra.
Qed.
Theorem tt_cards_in_range : forall T e p, tt_table tt_shipped T e p -> Forall (fun x => double_range (x / 1000)) e /\ Forall double_range p.
Proof.
  intros T e p [w0 E0]. destruct (clamped_bracket T) as (j & Hj & B). destruct (C50_interpolated_table T j Hj B) as (c & w & E & Hc & _).
  pose proof (C45_energy_spectrum_normalised _ _ _ _ _ _ _ E) as [L I]. refine (transfer _ _ _ _ _ _ _ E0 E _).
  exact (prob_in_range _ c j (ratio_unit _ _ _ (temp_step j (S j) (Nat.lt_succ_diag_r j)) B) Hj L I).
Qed.
